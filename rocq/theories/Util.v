(** * Model of /repo/scheme/util.py (text and nested dict utilities) and of the stateful part of
    /repo/scheme/exceptions.py.

    [identify_object] and [import_object] are modelled in [Mod.v], [StructureFormatter] in [Fmt.v].
    Not modelled: [with_metaclass]. *)
From Verif Require Export Env.

(** ** Texts *)

(** [' ' * n] for a count.  /repo/scheme/util.py:107-108 *)
Definition blanks (n : nat) : str := repeat 32%N n.

(** [indent] with an integer indent.  /repo/scheme/util.py:106-118 *)
Definition indent (text : str) (n : nat) (first : bool) : str :=
  let pre := blanks n in
  match split_on 10 text with
  | [] => []
  | l :: ls => join [10%N] ((if first then pre ++ l else l) :: map (app pre) ls)
  end.

(** [re.sub(r'\s+', ' ', value)]: [inside] tells whether the previous character was blank.
    /repo/scheme/util.py:121 *)
Fixpoint collapse (inside : bool) (s : str) : str :=
  match s with
  | [] => []
  | c :: s' => if is_space c then (if inside then collapse true s' else 32%N :: collapse true s')
               else c :: collapse false s'
  end.
(** [minimize_string].  /repo/scheme/util.py:120-121 *)
Definition minimize_string (s : str) : str := strip (N.eqb 32) (collapse false s).

(** What follows [x] when the text is [x ++ suf]; the pattern [suf$] also matches before a newline
    at the very end, so the rest is empty or one newline.  For /repo/scheme/util.py:124-130 *)
Definition cut (suf w : str) : option str :=
  let n := (length w - length suf)%nat in
  if str_eqb (skipn n w) suf then Some (firstn n w) else None.
(** The word without a final newline, and that newline ([$] matches before it).
    For /repo/scheme/util.py:124-130 *)
Definition chomp (w : str) : str * str :=
  match rev w with
  | c :: r => if N.eqb c 10 then (rev r, [10%N]) else (w, [])
  | [] => (w, [])
  end.
(** [re.compile(suf + '$').search] followed by [.sub(rep, word)] for a literal suffix: both places
    where [$] matches are tried, the one before a final newline first.  /repo/scheme/util.py:124-126, 137-138 *)
Definition sub_suffix (suf rep w : str) : option str :=
  let '(body, nl) := chomp w in
  match cut suf body with
  | Some x => Some (x ++ rep ++ nl)
  | None => None
  end.
(** [re.compile('$').sub(rep, word)]: every place where [$] matches.  /repo/scheme/util.py:127-128, 138 *)
Definition sub_end (rep w : str) : str :=
  let '(body, nl) := chomp w in
  match nl with [] => body ++ rep | _ => body ++ rep ++ nl ++ rep end.
(** Last characters, in reverse, at the places where [$] matches.  /repo/scheme/util.py:127-129, 137 *)
Definition ends (test : str -> bool) (w : str) : bool :=
  let '(body, nl) := chomp w in
  test (rev body) || match nl with [] => false | _ => test (rev w) end.

(** A character class such as [[sxz]].  /repo/scheme/util.py:127-129 *)
Definition in_chars (s : str) (c : N) : bool := existsb (N.eqb c) s.

(** [pluralize] with the rules of the module.  /repo/scheme/util.py:123-140 *)
Definition pluralize (L : localtz) (w : str) (quantity : val) : str :=
  if veq L quantity (VInt 1) then w
  else match sub_suffix $"ife" $"ives" w with Some r => r | None =>
       match sub_suffix $"eau" $"eaux" w with Some r => r | None =>
       match sub_suffix $"lf" $"lves" w with Some r => r | None =>
       if ends (fun r => match r with c :: _ => in_chars $"sxz" c | [] => false end) w
       then sub_end $"es" w
       else if ends (fun r => match r with
                              | h :: c :: _ => N.eqb h 104 && negb (in_chars $"aeioudgkprt" c)
                              | _ => false end) w
       then sub_end $"es" w
       else if ends (fun r => match r with
                              | y :: c :: r' =>
                                  N.eqb y 121
                                  && (negb (in_chars $"aeiou" c)
                                      || (N.eqb c 117 && match r' with q :: _ => N.eqb q 113 | _ => false end))
                              | _ => false end) w
       then match sub_suffix $"y" $"ies" w with Some r => r | None => w end
       else w ++ $"s"
       end end end.

(** [abbreviate_string].  /repo/scheme/util.py:23-38: on Python 3 [half] is a float, so slicing a
    long text raises TypeError. *)
Definition abbreviate_string (s : str) (maxlength : Z) : res str :=
  if (zlen s <=? Z.max maxlength 4)%Z then Ok s else Raise (XPy TypeError).

(** ** Nested dicts *)

(** The same dict object with other items.  /repo/scheme/util.py:148, 250 *)
Definition put_items (v : val) (items : list (val * val)) : val :=
  match v with
  | VDict o _ => VDict o items
  | VSurr i s ve _ => VSurr i s ve items
  | _ => v
  end.

(** [recursive_merge(original, addition)]: the items of [original] afterwards; [original] is
    modified in place and returned.  /repo/scheme/util.py:142-149 *)
Fixpoint recursive_merge (L : localtz) (original : list (val * val)) (addition : val)
  {struct addition} : list (val * val) :=
  match addition with
  | VDict _ l | VSurr _ _ _ l =>
      (fix go (l : list (val * val)) (original : list (val * val)) : list (val * val) :=
         match l with
         | [] => original
         | (key, value) :: l' =>
             let value' :=
               match dget L key original with
               | Some source =>
                   match as_dict source, as_dict value with
                   | Some items, Some _ => put_items source (recursive_merge L items value)
                   | _, _ => value
                   end
               | None => value
               end in
             go l' (dset L key value' original)
         end) l original
  | _ => original
  end.

(** The descent of [set_nested_value] along [segments], then [subject[last] = value]: the subject
    afterwards, whether or not an exception is raised.  Values are trees here: an object reachable
    by two paths counts as two.  /repo/scheme/util.py:234-250 *)
Fixpoint set_segments (subject : val) (segments : list str) (last : str) (value : val) : val * res unit :=
  match segments with
  | [] =>
      match as_dict subject with
      | Some items => (put_items subject (sset last value items), Ok tt)
      | None => (subject, Raise (XPy TypeError))
      end
  | key :: rest =>
      match as_dict subject with
      | Some items =>
          match sget key items with
          | Some sub =>
              let '(sub', r) := set_segments sub rest last value in
              (put_items subject (sset key sub' items), r)
          | None => (subject, Raise (XPy KeyError))
          end
      | None => (subject, Raise (XPy TypeError))
      end
  end.
(** /repo/scheme/util.py:234-250 *)
Definition set_nested_value (subject : val) (path : str) (value : val) : val * res unit :=
  let segments := split_on 46 path in
  set_segments subject (removelast segments) (last segments []) value.

(** [traverse_to_key].  /repo/scheme/util.py:252-262 *)
Fixpoint traverse_segments (value : val) (segments : list str) : res val :=
  match segments with
  | [] => Ok value
  | key :: rest =>
      match as_dict value with
      | Some items =>
          match sget key items with
          | Some sub => traverse_segments sub rest
          | None => Raise (XPy KeyError)
          end
      | None => Raise (XPy TypeError)
      end
  end.
(** /repo/scheme/util.py:252-262 *)
Definition traverse_to_key (value : val) (path : str) : res val :=
  traverse_segments value (split_on 46 path).

(** ** Structural errors as objects with state *)

(** An error object: its content and the attribute [_serialized_errors], if set.
    /repo/scheme/exceptions.py:58-67, 125 *)
Record eobj := EObj { eo_err : err; eo_cache : option val }.

(** The calls that change it or read it.  /repo/scheme/exceptions.py:76-126 *)
Inductive ecall :=
| CallAppend (e : val)                 (* append(error), lines 76-78 *)
| CallMerge (l : list val)             (* merge(exception) with these errors, lines 104-106 *)
| CallAttach (s : option val)          (* attach(structure), lines 80-82 *)
| CallSerialize (force : bool).        (* serialize(force), lines 108-126 *)

(** [self.errors] changed.  /repo/scheme/exceptions.py:77, 105 *)
Definition set_errors (e : err) (l : list val) : err :=
  Err (er_cls e) l (er_identity e) (er_structure e) (er_hasfield e).
(** [self.structure] changed.  /repo/scheme/exceptions.py:81 *)
Definition set_structure (e : err) (s : option val) : err :=
  Err (er_cls e) (er_errors e) (er_identity e) s (er_hasfield e).

(** One call: the object afterwards and the value returned by [serialize].  /repo/scheme/exceptions.py:76-126 *)
Definition ecall_step (o : eobj) (c : ecall) : eobj * option val :=
  match c with
  | CallAppend x => (EObj (set_errors (eo_err o) (er_errors (eo_err o) ++ [x])) (eo_cache o), None)
  | CallMerge l => (EObj (set_errors (eo_err o) (er_errors (eo_err o) ++ l)) (eo_cache o), None)
  | CallAttach s => (EObj (set_structure (eo_err o) s) (eo_cache o), None)
  | CallSerialize force =>
      match (if force then None else eo_cache o) with
      | Some v => (o, Some v)
      | None => let v := err_serialize (eo_err o) in (EObj (eo_err o) (Some v), Some v)
      end
  end.

(** A sequence of calls of the methods at /repo/scheme/exceptions.py:76-126 *)
Fixpoint ecalls (o : eobj) (l : list ecall) : eobj :=
  match l with
  | [] => o
  | c :: l' => ecalls (fst (ecall_step o c)) l'
  end.

(** ** Formatting *)

Section Format.
(** Rendering of one own error of an error (title, message, field, value, tracebacks):
    /repo/scheme/exceptions.py:138-154.  A parameter: it needs [repr] of fields and values. *)
Variable line : err -> val -> res str.

(** A loop that collects.  /repo/scheme/exceptions.py:135-154 *)
Fixpoint each {A B} (f : A -> res B) (l : list A) : res (list B) :=
  match l with
  | [] => Ok []
  | a :: l' => do b <- f a; do bs <- each f l'; Ok (b :: bs)
  end.

(** [StructuralError._format_errors].  /repo/scheme/exceptions.py:133-154 *)
Definition fmt_errors (e : err) : res (list str) :=
  if er_hasfield e then each (line e) (er_errors e) else Ok [].

(** [StructuralError._format_structure] for the structure [s].
    /repo/scheme/exceptions.py:156-166 *)
Fixpoint fmt_structure (s : val) : res (list str) :=
  let item (x : val) : res (list str) :=
    match x with
    | VErr e => match er_structure e with
                | Some s' => fmt_structure s'
                | None => fmt_errors e
                end
    | _ => Ok []
    end in
  match s with
  | VDict _ l | VSurr _ _ _ l =>
      (fix go (l : list (val * val)) : res (list str) :=
         match l with
         | [] => Ok []
         | (_, x) :: l' => do a <- item x; do b <- go l'; Ok (a ++ b)
         end) l
  | VList l | VTuple l =>
      (fix go (l : list val) : res (list str) :=
         match l with
         | [] => Ok []
         | x :: l' => do a <- item x; do b <- go l'; Ok (a ++ b)
         end) l
  | VStr _ | VBytes _ => Ok []
  | _ => Raise (XPy TypeError)
  end.

(** ['%02d' % n].  /repo/scheme/exceptions.py:100 *)
Definition two_digits (n : nat) : str :=
  let s := N_text (N.of_nat n) in match s with [c] => [48%N; c] | _ => s end.

(** [enumerate(errors)] with numbers from 1.  /repo/scheme/exceptions.py:98-102 *)
Fixpoint numbered (i : nat) (l : list str) : list str :=
  match l with
  | [] => []
  | s :: l' => ($"[" ++ two_digits i ++ $"] " ++ indent s 5 false) :: numbered (S i) l'
  end.

(** [StructuralError.format_errors].  /repo/scheme/exceptions.py:91-102 *)
Definition format_errors (e : err) : res (list str) :=
  do own <- match er_errors e with [] => Ok [] | _ => fmt_errors e end;
  do nested <- match er_structure e with
               | Some s => if truthy s then fmt_structure s else Ok []
               | None => Ok []
               end;
  Ok (numbered 1 (own ++ nested)).

End Format.
