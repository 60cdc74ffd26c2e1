(** * What the package receives from outside, and error serialization used while processing. *)
From Verif Require Export PyVal Base64 Regex.

(** Everything the modelled code gets from its caller or from the Python runtime and that is not
    computed by the package itself.  All theorems quantify over every [env].  Callables are
    assumed to be deterministic and not to modify their arguments.
    The places of use in /repo are given at each entry. *)
Record env := {
  (** user preprocessors, /repo/scheme/field.py:455-460 *)
  e_pre : nat -> val -> res val;
  (** user extractors, /repo/scheme/field.py:354-358 *)
  e_ext : nat -> val -> res val;
  (** user instantiators (value, key), /repo/scheme/field.py:403-404 *)
  e_inst : nat -> val -> val -> res val;
  (** compiled patterns of Text fields, /repo/scheme/fields/text.py:87 *)
  e_pattern : nat -> str -> bool;
  (** local time zone, /repo/scheme/timezone.py *)
  e_local : localtz;
  (** does the C library pad [%Y]?  /repo/scheme/fields/date.py:66 *)
  e_pad : bool;
  (** Unicode tables above ASCII: decimal digits, word characters, lower case *)
  e_udigit : N -> option N;
  e_uword : N -> bool;
  e_ulower : N -> str;
  (** [import_object], [None] is ImportError; [identify_object], [None] is TypeError;
      /repo/scheme/util.py:46-104 *)
  e_import : str -> option val;
  e_identify : val -> option str;
  (** what each placeholder was defined as, /repo/scheme/field.py:628-634 *)
  e_undef : nat -> option field;
  (** ['%s' % v] for values other than strings, integers and tuples *)
  e_str : val -> str;
  (** surrogate implementation named by a token and the schemas of an implementation,
      /repo/scheme/surrogate.py:145-158, 30 *)
  e_impl : val -> nat;
  e_schemas : nat -> list field;
  (** the attributes [surrogate] and [identity] of an implementation, [None] is AttributeError: the
      package sets [surrogate] with [__metaclass__], which Python 3 ignores, and [identity] nowhere, so
      that they exist only where a subclass defines them,
      /repo/scheme/surrogate.py:8-12, 28, 126, /repo/scheme/fields/surrogate.py:65 *)
  e_surrogate : nat -> option str;
  e_identity : nat -> option str;
  (** [re.compile], [None] is [re.error], /repo/scheme/fields/text.py:37-38 *)
  e_compile : str -> option nat;
  (** [', '.join(repr(v) ...)], /repo/scheme/fields/enumeration.py:41 *)
  e_repr : list val -> str
}.

(** [StructuralError._serialize_errors].  /repo/scheme/exceptions.py:168-176 *)
Definition ser_errors (l : list val) : list val :=
  map (fun e => match as_dict e with
                | Some _ => e
                | None => VDict false [(VStr $"message", e)]
                end) l.

(** [StructuralError._serialize_structure].  /repo/scheme/exceptions.py:178-201 *)
Fixpoint ser_structure (s : val) : val :=
  match s with
  | VList l =>
      VList (map (fun it => match it with
                            | VErr e => match er_structure e with
                                        | Some s' => ser_structure s'
                                        | None => VList (ser_errors (er_errors e))
                                        end
                            | _ => VNone
                            end) l)
  | VDict _ l | VSurr _ _ _ l =>
      VDict false
        (flat_map (fun kv => match snd kv with
                             | VErr e => [(fst kv, match er_structure e with
                                                   | Some s' => ser_structure s'
                                                   | None => VList (ser_errors (er_errors e))
                                                   end)]
                             | _ => []
                             end) l)
  | _ => VNone
  end.

(** The pair computed by [StructuralError.serialize] (no cached value).
    /repo/scheme/exceptions.py:115-126 *)
Definition err_serialize (e : err) : val :=
  VTuple [ match er_errors e with [] => VNone | l => VList (ser_errors l) end;
           match er_structure e with
           | Some s => if truthy s then ser_structure s else VNone
           | None => VNone
           end ].

(** Iteration over a value; [None] is TypeError.
    For [cls( *errors)] at /repo/scheme/exceptions.py:128-131 and loops such as
    /repo/scheme/fields/sequence.py:192 *)
Definition py_iter (v : val) : option (list val) :=
  match v with
  | VList l | VTuple l => Some l
  | VStr s => Some (map (fun c => VStr [c]) s)
  | VBytes b => Some (map (fun c => VInt (Z.of_N c)) b)
  | VDict _ l | VSurr _ _ _ l => Some (map fst l)
  | _ => None
  end.

(** [StructuralError.unserialize] on a pair.  /repo/scheme/exceptions.py:128-131: [cls( *errors)]
    with [errors = None] is a TypeError. *)
Definition err_unserialize (errors structure : val) : res val :=
  match py_iter errors with
  | None => Raise (XPy TypeError)
  | Some l => Ok (VErr (Err CStructural l [$"(unknown)"]
                           (if is_none structure then None else Some structure) false))
  end.
