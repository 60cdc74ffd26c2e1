(** * Vocabulary for the equality of values (C91): which values are equal, without reference to how they
    are compared. *)
From Verif Require Export Spec CalSpec.

(** The number that a value is, if it is a finite one: booleans are 0 and 1, floats and decimals exactly
    the rational number that they stand for. *)
Inductive quantity : val -> Q -> Prop :=
| quantity_false : quantity (VBool false) 0%Q
| quantity_true : quantity (VBool true) 1%Q
| quantity_int z : quantity (VInt z) (inject_Z z)
| quantity_float_zero s : quantity (VFloat (S754_zero s)) 0%Q
| quantity_float s m e : quantity (VFloat (S754_finite s m e)) (float_Q (S754_finite s m e))
| quantity_dec neg c e : quantity (VDec (DFin neg c e)) (dec_Q (DFin neg c e)).

(** The infinities, with their sign. *)
Inductive infinity_of : val -> bool -> Prop :=
| infinity_float s : infinity_of (VFloat (S754_infinity s)) s
| infinity_dec s : infinity_of (VDec (DInf s)) s.

(** Two datetimes that are equal: without zone, or both in UTC, or both in the local zone, when they show
    the same day and time; in zones that are not the same object, when they are the same instant. *)
Inductive same_moment (L : localtz) : datetime -> datetime -> Prop :=
| same_naive d t : same_moment L (DateTime d t None) (DateTime d t None)
| same_utc d t : same_moment L (DateTime d t (Some TzUTC)) (DateTime d t (Some TzUTC))
| same_local d t : same_moment L (DateTime d t (Some TzLocal)) (DateTime d t (Some TzLocal))
| same_instant a b x y i :
    dt_tz a = Some x -> dt_tz b = Some y -> ~ (x = TzLocal /\ y = TzLocal) ->
    instant L true a i -> instant L true b i -> same_moment L a b.

(** The entries of a dict, an instance of a subclass included. *)
Inductive entries_of : val -> list (val * val) -> Prop :=
| entries_dict o l : entries_of (VDict o l) l
| entries_surrogate i s w l : entries_of (VSurr i s w l) l.

(** Equality of values: null with itself, numbers of whatever type by what they stand for (a NaN with
    nothing), texts, bytes, dates and times with the same ones, lists with lists and tuples with tuples
    item by item, dicts with as many entries when each entry of the first has its equal in the second,
    other objects with themselves. *)
Inductive equal (L : localtz) : val -> val -> Prop :=
| equal_null : equal L VNone VNone
| equal_number a b x y : quantity a x -> quantity b y -> (x == y)%Q -> equal L a b
| equal_infinity a b s : infinity_of a s -> infinity_of b s -> equal L a b
| equal_text s : equal L (VStr s) (VStr s)
| equal_bytes s : equal L (VBytes s) (VBytes s)
| equal_date d : equal L (VDate d) (VDate d)
| equal_time t : equal L (VTime t) (VTime t)
| equal_datetime x y : same_moment L x y -> equal L (VDateTime x) (VDateTime y)
| equal_list x y : Forall2 (equal L) x y -> equal L (VList x) (VList y)
| equal_tuple x y : Forall2 (equal L) x y -> equal L (VTuple x) (VTuple y)
| equal_dict a b x y :
    entries_of a x -> entries_of b y -> length x = length y ->
    Forall (fun kv => exists kw, In kw y /\ equal L (fst kv) (fst kw) /\ equal L (snd kv) (snd kw)) x ->
    equal L a b
| equal_object i attrs attrs' : equal L (VObj i attrs) (VObj i attrs').

(** The datetimes in a value, at any depth, exist in the calendar. *)
Inductive dated : val -> Prop :=
| dated_datetime dt : existing dt -> dated (VDateTime dt)
| dated_list l : Forall dated l -> dated (VList l)
| dated_tuple l : Forall dated l -> dated (VTuple l)
| dated_dict a l : entries_of a l -> Forall (fun kv => dated (fst kv) /\ dated (snd kv)) l -> dated a
| dated_other v :
    match v with
    | VDateTime _ | VList _ | VTuple _ | VDict _ _ | VSurr _ _ _ _ => False
    | _ => True
    end -> dated v.
