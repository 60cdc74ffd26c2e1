(** * Construction of surrogates. *)
From Verif Require Export Element.

Section Surrogate.
Context (E : env) (n : nat).

(** The argument [impl] of [surrogate.construct]: left out, a token, or a class.
    /repo/scheme/surrogate.py:56, 62-65 *)
Inductive implementation := Omitted | Named (token : str) | Class (impl : nat).

(** [_get_implementation] and the default.  /repo/scheme/surrogate.py:62-65, 145-158 *)
Definition implementation_of (cls : nat) (i : implementation) : nat :=
  match i with Omitted => cls | Named token => e_impl E (VStr token) | Class c => c end.

(** [Exception] itself, raised with a message.  /repo/scheme/surrogate.py:70, 77 *)
Definition plain_exception : pyexc := OtherError 5.

(** The schema to extract with and the version: a schema given is refused for a class that has its
    own; without one the class's schema of the version, by default the last, is used.  Negative
    indices count from the end.  /repo/scheme/surrogate.py:67-77 *)
Definition effective (impl : nat) (schema : option field) (version : option Z) : res (option field * option Z) :=
  match schema, e_schemas E impl with
  | Some f, [] => Ok (Some f, version)
  | Some f, _ => py plain_exception
  | None, [] => Ok (None, version)
  | None, schemas =>
      let z := match version with Some z => z | None => zlen schemas end in
      let i := (z - 1)%Z in
      let i' := if (i <? 0)%Z then (i + zlen schemas)%Z else i in
      if (i' <? 0)%Z then py plain_exception
      else match nth_error schemas (Z.to_nat i') with
           | Some f => Ok (Some f, Some z)
           | None => py plain_exception
           end
  end.

(** [value.update(params)].  /repo/scheme/surrogate.py:88-89 *)
Definition updated (l : list (val * val)) (params : list (str * val)) : list (val * val) :=
  fold_left (fun l kv => sset (fst kv) (snd kv) l) params l.

(** [surrogate.construct] called on the class [cls].  [contribute] does nothing unless a subclass
    redefines it, and the constructors of subclasses are the inherited one (neither is modelled
    otherwise).  What an extraction may return besides a dict is not modelled, except null.
    /repo/scheme/surrogate.py:55-96 *)
Definition surr_construct (cls : nat) (i : implementation) (value : val) (schema : option field)
  (version : option Z) (params : list (str * val)) : res val :=
  let impl := implementation_of cls i in
  do e <- effective impl schema version;
  let '(eff, ver) := e in
  do l <- match value, params with
          | VNone, [] => py ValueError
          | VNone, _ => Ok (strs params)
          | _, _ =>
              do w <- match as_dict value, eff with
                      | Some l, Some f => extract E n true [] f (VDict false l)
                      | Some l, None => Ok (VDict false l)
                      | None, Some f => extract E n false [] f value
                      | None, None => py ValueError
                      end;
              match w, params with
              | VDict _ l, _ => Ok (updated l params)
              | VNone, [] => py TypeError                       (* dict(None) *)
              | VNone, _ => py AttributeError
              | _, _ => outside
              end
          end;
  Ok (VSurr impl schema ver l).

(** [surrogate.acquire] of a class whose [_acquire_surrogate] answers [acquired] for a version: a
    surrogate is returned as it is, other values are constructed.  (A surrogate of a class that is not
    derived from [cls] is not modelled.)  /repo/scheme/surrogate.py:40-53, 141-143 *)
Definition surr_acquire (acquired : nat -> Z -> res val) (cls : nat) (i : implementation) (version : option Z) : res val :=
  let impl := implementation_of cls i in
  match e_schemas E impl with
  | [] => py ValueError
  | schemas =>
      let z := match version with Some z => z | None => zlen schemas end in
      do value <- acquired impl z;
      match value with
      | VSurr _ _ _ _ => Ok value
      | _ => surr_construct cls (Class impl) value None (Some z) []
      end
  end.

End Surrogate.
