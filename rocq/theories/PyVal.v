(** * Python values, structural errors and fields.

    Fields can be values (Definition fields, specifications) and values occur in fields (defaults,
    constants, enumerations), so the two types are mutually inductive. *)
From Verif Require Export PyBase NumText Calendar.

(** A structural error.  /repo/scheme/exceptions.py:58-68.  Kept: class, own errors, identity,
    structure, and whether a field is attached.  Not kept: the offending value, which field it is
    (only used to format messages), tracebacks.  The identity ['(unknown)'] is a one element list. *)
Record errP (V : Type) := Err {
  er_cls : ecls;
  er_errors : list V;
  er_identity : list str;
  er_structure : option V;
  er_hasfield : bool
}.
Arguments Err {V}. Arguments er_cls {V}. Arguments er_errors {V}. Arguments er_identity {V}.
Arguments er_structure {V}. Arguments er_hasfield {V}.

(** The parameters common to all fields.  /repo/scheme/field.py:171-212.  Callables are
    represented by an identifier interpreted by the environment. Boolean parameters are booleans
    (Python accepts any object). *)
Record paramsP (V : Type) := Params {
  p_name : option str;
  p_nonnull : bool;
  p_required : bool;
  p_ignore_null : bool;
  p_default : V;
  p_constant : V;
  p_preprocessor : option nat;
  p_extractor : option nat;
  p_instantiator : option nat;
  p_title : V;
  p_description : V;
  p_notes : V;
  p_aspects : list (str * V)
}.
Arguments Params {V}. Arguments p_name {V}. Arguments p_nonnull {V}. Arguments p_required {V}.
Arguments p_ignore_null {V}. Arguments p_default {V}. Arguments p_constant {V}.
Arguments p_preprocessor {V}. Arguments p_extractor {V}. Arguments p_instantiator {V}.
Arguments p_title {V}. Arguments p_description {V}. Arguments p_notes {V}. Arguments p_aspects {V}.

(** [Structure.structure]: plain or polymorphic.  /repo/scheme/fields/structure.py:64-102.
    Keys of a structure are strings (the documentation requires it). *)
Inductive sdefP (V F : Type) :=
| SPlain (l : list (str * F))
| SPoly (on : F) (l : list (V * list (str * F))).
Arguments SPlain {V F}. Arguments SPoly {V F}.

(** The field classes with their own parameters.  One constructor per file of
    /repo/scheme/fields/; [KField] is /repo/scheme/field.py [Field] itself.  Length bounds are
    integers (Python booleans accepted by [isinstance(x, int)] are identified with 0 and 1);
    bounds of Date are dates (a [datetime] is not modelled as a bound). Patterns of Text are
    identifiers interpreted by the environment. *)
Inductive kindP (V F : Type) :=
| KField
| KBinary (minl maxl : option Z)
| KBoolean
| KDate (mn mx : option date)
| KDateTime (mn mx : option datetime) (utc : bool)
| KDecimal (mn mx : option dec)
| KDefinition (valid : option (list str))
| KEmail (multiple extended : bool) (minl maxl : option Z)
| KEnumeration (l : list V) (ignored : option (list V))
| KError
| KFloat (mn mx : option spec_float)
| KInteger (mn mx : option Z)
| KMap (value : F) (key : option F) (required_keys : option (list V))
| KObject
| KSequence (item : F) (minl maxl : option Z) (unique : bool)
| KStructure (d : sdefP V F) (strict : bool) (key_order : option (list str))
| KSurrogate (valid : option (list str))
| KText (pattern : option nat) (minl maxl : option Z) (strip : bool)
| KTime (mn mx : option tod)
| KToken (segments : option Z)
| KTuple (values : list F)
| KUnion (fields : list F)
| KUUID.
Arguments KField {V F}. Arguments KBinary {V F}. Arguments KBoolean {V F}. Arguments KDate {V F}.
Arguments KDateTime {V F}. Arguments KDecimal {V F}. Arguments KDefinition {V F}.
Arguments KEmail {V F}. Arguments KEnumeration {V F}. Arguments KError {V F}. Arguments KFloat {V F}.
Arguments KInteger {V F}. Arguments KMap {V F}. Arguments KObject {V F}. Arguments KSequence {V F}.
Arguments KStructure {V F}. Arguments KSurrogate {V F}. Arguments KText {V F}. Arguments KTime {V F}.
Arguments KToken {V F}. Arguments KTuple {V F}. Arguments KUnion {V F}. Arguments KUUID {V F}.

(** Python values.  [VDict true] is an [OrderedDict]; [VObj] is any other object (identity,
    attributes); [VSurr] is an instance of /repo/scheme/surrogate.py [surrogate] (a [dict]
    subclass).  [FUndef] is an [Undefined] placeholder (/repo/scheme/field.py:616-634) sitting in a
    slot of a structural field. *)
Inductive val :=
| VNone
| VBool (b : bool)
| VInt (z : Z)
| VFloat (f : spec_float)
| VStr (s : str)
| VBytes (b : list N)
| VDec (d : dec)
| VDate (d : date)
| VTime (t : tod)
| VDateTime (dt : datetime)
| VList (l : list val)
| VTuple (l : list val)
| VDict (ordered : bool) (l : list (val * val))
| VObj (id : nat) (attrs : list (str * val))
| VSurr (impl : nat) (schema : option field) (version : option Z) (l : list (val * val))
| VErr (e : errP val)
| VField (f : field)
with field :=
| FUndef (n : nat)
| Fld (p : paramsP val) (k : kindP val field).

(** Structural errors.  /repo/scheme/exceptions.py:34-68 *)
Definition err := errP val.
(** The parameters common to all fields.  /repo/scheme/field.py:161-167 *)
Definition params := paramsP val.
(** The class of a field with its own parameters.  /repo/scheme/fields/*.py: __init__ *)
Definition kind := kindP val field.
(** What [structure] and [polymorphic_on] of a structure hold.  /repo/scheme/fields/structure.py:58-100 *)
Definition sdef := sdefP val field.

(** Outcome of a Python call.  The exceptions of /repo/scheme/exceptions.py and of Python. *)
Inductive exn := XErr (e : err) | XPy (x : pyexc).
(** Returned or raised, for every function of /repo/scheme/*.py *)
Inductive res (A : Type) := Ok (a : A) | Raise (x : exn).
Arguments Ok {A}. Arguments Raise {A}.

(** Evaluation in order, for every function of /repo/scheme/*.py; an exception ends it. *)
Definition bind {A B} (r : res A) (f : A -> res B) : res B :=
  match r with Ok a => f a | Raise x => Raise x end.
Notation "'do' x <- r ; k" := (bind r (fun x => k))
  (at level 200, x pattern, r at level 100, k at level 200).

(** The immediate subfields of a field class.
    [structure.values()] at /repo/scheme/fields/structure.py:405 and the discriminator of line 382. *)
Definition sdef_fields {V F} (d : sdefP V F) : list F :=
  match d with
  | SPlain l => map snd l
  | SPoly on l => on :: flat_map (fun vl => map snd (snd vl)) l
  end.

(** The attributes that hold fields: /repo/scheme/fields/map.py, sequence.py, structure.py, tuple.py,
    union.py: __init__ *)
Definition subfields {V F} (k : kindP V F) : list F :=
  match k with
  | KMap v None _ => [v]
  | KMap v (Some kf) _ => [v; kf]
  | KSequence i _ _ _ => [i]
  | KStructure d _ _ => sdef_fields d
  | KTuple l => l
  | KUnion l => l
  | _ => []
  end.

(** Change of the subfields, position by position.  Used for /repo/scheme/fields/structure.py *)
Definition sdef_map {V F G} (g : F -> G) (d : sdefP V F) : sdefP V G :=
  match d with
  | SPlain l => SPlain (map (fun kf => (fst kf, g (snd kf))) l)
  | SPoly on l =>
      SPoly (g on) (map (fun vl => (fst vl, map (fun kf => (fst kf, g (snd kf))) (snd vl))) l)
  end.

(** The same for all classes: /repo/scheme/fields/map.py, sequence.py, structure.py, tuple.py, union.py *)
Definition kmap {V F G} (g : F -> G) (k : kindP V F) : kindP V G :=
  match k with
  | KField => KField
  | KBinary a b => KBinary a b
  | KBoolean => KBoolean
  | KDate a b => KDate a b
  | KDateTime a b u => KDateTime a b u
  | KDecimal a b => KDecimal a b
  | KDefinition v => KDefinition v
  | KEmail m e a b => KEmail m e a b
  | KEnumeration l i => KEnumeration l i
  | KError => KError
  | KFloat a b => KFloat a b
  | KInteger a b => KInteger a b
  | KMap v kf r => KMap (g v) (option_map g kf) r
  | KObject => KObject
  | KSequence i a b u => KSequence (g i) a b u
  | KStructure d s o => KStructure (sdef_map g d) s o
  | KSurrogate v => KSurrogate v
  | KText p a b s => KText p a b s
  | KTime a b => KTime a b
  | KToken s => KToken s
  | KTuple l => KTuple (map g l)
  | KUnion l => KUnion (map g l)
  | KUUID => KUUID
  end.

(** Lower-cased class name: [Field.type].  /repo/scheme/field.py:37 *)
Definition kind_type {V F} (k : kindP V F) : str :=
  match k with
  | KField => $"field" | KBinary _ _ => $"binary" | KBoolean => $"boolean" | KDate _ _ => $"date"
  | KDateTime _ _ _ => $"datetime" | KDecimal _ _ => $"decimal" | KDefinition _ => $"definition"
  | KEmail _ _ _ _ => $"email" | KEnumeration _ _ => $"enumeration" | KError => $"error"
  | KFloat _ _ => $"float" | KInteger _ _ => $"integer" | KMap _ _ _ => $"map"
  | KObject => $"object" | KSequence _ _ _ _ => $"sequence" | KStructure _ _ _ => $"structure"
  | KSurrogate _ => $"surrogate" | KText _ _ _ _ => $"text" | KTime _ _ => $"time"
  | KToken _ => $"token" | KTuple _ => $"tuple" | KUnion _ => $"union" | KUUID => $"uuid"
  end.

(** Class attribute [structural].  /repo/scheme/fields/{map,sequence,structure,tuple,union}.py *)
Definition kind_structural {V F} (k : kindP V F) : bool :=
  match k with
  | KMap _ _ _ | KSequence _ _ _ _ | KStructure _ _ _ | KTuple _ | KUnion _ => true
  | _ => false
  end.

(** ** Python operations on values *)

(** Numeric value of [bool], [int], [float], [Decimal].
    For comparisons at /repo/scheme/field.py:462, /repo/scheme/fields/enumeration.py:70 *)
Definition num_of (v : val) : option num :=
  match v with
  | VBool b => Some (num_of_Z (b2z b))
  | VInt z => Some (num_of_Z z)
  | VFloat f => Some (num_of_float f)
  | VDec d => Some (num_of_dec d)
  | _ => None
  end.


(** [==] of lists, item by item.  /repo/scheme/field.py:462 *)
Fixpoint list_eqb {A} (eq : A -> A -> bool) (a b : list A) : bool :=
  match a, b with
  | [], [] => true
  | x :: a', y :: b' => eq x y && list_eqb eq a' b'
  | _, _ => false
  end.

(** The items of a [dict] (or a subclass instance); [None] if not a dict.
    [isinstance(value, dict)] at /repo/scheme/fields/structure.py:366, map.py and others. *)
Definition as_dict (v : val) : option (list (val * val)) :=
  match v with
  | VDict _ l => Some l
  | VSurr _ _ _ l => Some l
  | _ => None
  end.

(** Python [==].  Simplifications: objects, fields and errors compare by identity, which is the
    object number for [VObj] and never holds between fields or errors; a signaling NaN inside a
    container does not raise. Dicts compare regardless of order.
    /repo/scheme/field.py:462, /repo/scheme/fields/enumeration.py:70 *)
Fixpoint veq (L : localtz) (a b : val) {struct a} : bool :=
  match a with
  | VNone => match b with VNone => true | _ => false end
  | VBool x => match num_of b with Some n => num_eqb (num_of_Z (b2z x)) n | None => false end
  | VInt x => match num_of b with Some n => num_eqb (num_of_Z x) n | None => false end
  | VFloat x => match num_of b with Some n => num_eqb (num_of_float x) n | None => false end
  | VDec x => match num_of b with Some n => num_eqb (num_of_dec x) n | None => false end
  | VStr x => match b with VStr y => str_eqb x y | _ => false end
  | VBytes x => match b with VBytes y => str_eqb x y | _ => false end
  | VDate x => match b with VDate y => date_eqb x y | _ => false end
  | VTime x => match b with VTime y => tod_eqb x y | _ => false end
  | VDateTime x => match b with VDateTime y => dt_eqb L x y | _ => false end
  | VList x => match b with
               | VList y => (fix go (x y : list val) : bool :=
                    match x, y with
                    | [], [] => true
                    | u :: x', v :: y' => veq L u v && go x' y'
                    | _, _ => false
                    end) x y
               | _ => false end
  | VTuple x => match b with
                | VTuple y => (fix go (x y : list val) : bool :=
                    match x, y with
                    | [], [] => true
                    | u :: x', v :: y' => veq L u v && go x' y'
                    | _, _ => false
                    end) x y
                | _ => false end
  | VDict _ x | VSurr _ _ _ x =>
      match as_dict b with
      | Some y => Nat.eqb (length x) (length y)
                  && forallb (fun kv => existsb (fun kw => veq L (fst kv) (fst kw)
                                                            && veq L (snd kv) (snd kw)) y) x
      | None => false
      end
  | VObj i _ => match b with VObj j _ => Nat.eqb i j | _ => false end
  | VErr _ => false
  | VField _ => false
  end.

(** [v in list].  /repo/scheme/fields/enumeration.py:70 *)
Definition vmem (L : localtz) (v : val) (l : list val) : bool := existsb (fun x => veq L x v) l.

(** Truth of a value.  For [if value] and [not value], e.g. /repo/scheme/fields/structure.py:393, 397, 399 *)
Definition truthy (v : val) : bool :=
  match v with
  | VNone => false
  | VBool b => b
  | VInt z => negb (z =? 0)%Z
  | VFloat (S754_zero _) => false
  | VFloat _ => true
  | VStr s => match s with [] => false | _ => true end
  | VBytes s => match s with [] => false | _ => true end
  | VDec (DFin _ c _) => negb (c =? 0)%N
  | VDec _ => true
  | VList l | VTuple l => match l with [] => false | _ => true end
  | VDict _ l | VSurr _ _ _ l => match l with [] => false | _ => true end
  | _ => true
  end.

(** [value is None].  E.g. /repo/scheme/field.py:462, 575 *)
Definition is_none (v : val) : bool := match v with VNone => true | _ => false end.

(** [hash(v)] does not raise.
    For [set(...)] and dict keys, e.g. /repo/scheme/fields/sequence.py:206,
    /repo/scheme/fields/structure.py:392 *)
Fixpoint hashable (v : val) : bool :=
  match v with
  | VList _ | VDict _ _ | VSurr _ _ _ _ => false
  | VTuple l => forallb hashable l
  | VDec d => negb (is_snan d)
  | _ => true
  end.

(** ** Dicts with arbitrary keys *)

(** [d.get(k)], [d[k]].  /repo/scheme/fields/structure.py:392, /repo/scheme/fields/map.py:206 *)
Fixpoint dget (L : localtz) (k : val) (l : list (val * val)) : option val :=
  match l with
  | [] => None
  | (k', v) :: l' => if veq L k' k then Some v else dget L k l'
  end.

(** [d[k] = v]: an existing equal key keeps its place and its spelling.  /repo/scheme/fields/map.py:206, 221 *)
Fixpoint dset (L : localtz) (k v : val) (l : list (val * val)) : list (val * val) :=
  match l with
  | [] => [(k, v)]
  | (k', v') :: l' => if veq L k' k then (k', v) :: l' else (k', v') :: dset L k v l'
  end.

(** [k in d].  /repo/scheme/fields/map.py:218 *)
Definition dmem (L : localtz) (k : val) (l : list (val * val)) : bool :=
  match dget L k l with Some _ => true | None => false end.

(** Lookup of a string key: only a string can be equal to a string.
    /repo/scheme/fields/structure.py:384, 411 and others. *)
Fixpoint sget (k : str) (l : list (val * val)) : option val :=
  match l with
  | [] => None
  | (VStr k', v) :: l' => if str_eqb k k' then Some v else sget k l'
  | _ :: l' => sget k l'
  end.

(** [d[k] = v] for a text.  /repo/scheme/fields/structure.py:418, 426 and others. *)
Fixpoint sset (k : str) (v : val) (l : list (val * val)) : list (val * val) :=
  match l with
  | [] => [(VStr k, v)]
  | (VStr k', v') :: l' => if str_eqb k k' then (VStr k', v) :: l' else (VStr k', v') :: sset k v l'
  | kv :: l' => kv :: sset k v l'
  end.

(** [del d[k]], [d.pop(k)] for a text.  /repo/scheme/fields/structure.py:72, /repo/scheme/field.py
    (reconstruct) *)
Fixpoint sdel (k : str) (l : list (val * val)) : list (val * val) :=
  match l with
  | [] => []
  | (VStr k', v') :: l' => if str_eqb k k' then l' else (VStr k', v') :: sdel k l'
  | kv :: l' => kv :: sdel k l'
  end.
