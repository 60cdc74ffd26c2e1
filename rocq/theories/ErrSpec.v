(** * Vocabulary of the claims about structural errors (C39 to C42). *)
From Verif Require Export Spec Util.

(** An own error in serialized form: a dict stays, anything else becomes its message. *)
Definition own_form (x y : val) : Prop :=
  (as_dict x <> None /\ y = x)
  \/ (as_dict x = None /\ y = VDict false [(VStr $"message", x)]).

Definition is_err (v : val) : Prop := exists e, v = VErr e.

(** [mirrors s r]: the structure [s] of an error in serialized form.  A list keeps its length, with
    null in the places without error; a dict keeps the keys of the errors only. *)
Inductive mirrors : val -> val -> Prop :=
| mir_list : forall l r, mirrors_list l r -> mirrors (VList l) (VList r)
| mir_dict : forall s l r, as_dict s = Some l -> mirrors_items l r -> mirrors s (VDict false r)
| mir_none : forall s, as_dict s = None -> (forall l, s <> VList l) -> mirrors s VNone
with mirrors_list : list val -> list val -> Prop :=
| ml_nil : mirrors_list [] []
| ml_error : forall e x l r, nested_form e x -> mirrors_list l r -> mirrors_list (VErr e :: l) (x :: r)
| ml_other : forall v l r, ~ is_err v -> mirrors_list l r -> mirrors_list (v :: l) (VNone :: r)
with mirrors_items : list (val * val) -> list (val * val) -> Prop :=
| mi_nil : mirrors_items [] []
| mi_error : forall k e x l r, nested_form e x -> mirrors_items l r ->
    mirrors_items ((k, VErr e) :: l) ((k, x) :: r)
| mi_other : forall k v l r, ~ is_err v -> mirrors_items l r -> mirrors_items ((k, v) :: l) r
with nested_form : err -> val -> Prop :=
| nf_own : forall e r, er_structure e = None -> Forall2 own_form (er_errors e) r -> nested_form e (VList r)
| nf_structure : forall e s r, er_structure e = Some s -> mirrors s r -> nested_form e r.

(** [leaf_at s path e]: following the list positions and dict keys of [path] through the nested
    structures leads to the error [e], which has no structure. *)
Inductive leaf_at : val -> list val -> err -> Prop :=
| la_leaf : forall s k e, error_at s k e -> er_structure e = None -> leaf_at s [k] e
| la_deeper : forall s k e s' path e', error_at s k e -> er_structure e = Some s' ->
    leaf_at s' path e' -> leaf_at s (k :: path) e'
with error_at : val -> val -> err -> Prop :=
| ea_list : forall l i e, nth_error l i = Some (VErr e) -> error_at (VList l) (VInt (Z.of_nat i)) e
| ea_dict : forall s l k e, as_dict s = Some l -> In (k, VErr e) l -> error_at s k e.

(** Following the same path through a serialized structure. *)
Inductive reads : val -> list val -> val -> Prop :=
| rd_here : forall r, reads r [] r
| rd_list : forall l i x path y, nth_error l i = Some x -> reads x path y ->
    reads (VList l) (VInt (Z.of_nat i) :: path) y
| rd_dict : forall o l k x path y, In (k, x) l -> reads x path y -> reads (VDict o l) (k :: path) y.

(** ** Histories *)

(** Errors added by a call, and the structure after a call. *)
Definition added (c : ecall) : list val :=
  match c with CallAppend x => [x] | CallMerge l => l | _ => [] end.
Fixpoint attached (s : option val) (l : list ecall) : option val :=
  match l with
  | [] => s
  | CallAttach s' :: l' => attached s' l'
  | _ :: l' => attached s l'
  end.
(** The content of the error after a history. *)
Definition content (e : err) (calls : list ecall) : err :=
  {| er_cls := er_cls e; er_errors := er_errors e ++ flat_map added calls;
     er_identity := er_identity e; er_structure := attached (er_structure e) calls;
     er_hasfield := er_hasfield e |}.

Definition is_serialize (c : ecall) : Prop := exists f, c = CallSerialize f.

(** What [serialize(force)] returns after a history, the object being created with content [e]. *)
Definition returns (e : err) (calls : list ecall) (force : bool) (v : val) : Prop :=
  snd (ecall_step (ecalls (EObj e None) calls) (CallSerialize force)) = Some v.

(** ** Formatting *)

(** [leaves s es]: the errors without structure found in [s], in order. *)
Inductive leaves : val -> list err -> Prop :=
| lv_list : forall s l es, s = VList l \/ s = VTuple l -> leaves_in l es -> leaves s es
| lv_dict : forall s l es, as_dict s = Some l -> leaves_in (map snd l) es -> leaves s es
| lv_text : forall s t, s = VStr t \/ s = VBytes t -> leaves s []
with leaves_in : list val -> list err -> Prop :=
| li_nil : leaves_in [] []
| li_leaf : forall e l es, er_structure e = None -> leaves_in l es -> leaves_in (VErr e :: l) (e :: es)
| li_nested : forall e s l es es', er_structure e = Some s -> leaves s es -> leaves_in l es' ->
    leaves_in (VErr e :: l) (es ++ es')
| li_other : forall v l es, ~ is_err v -> leaves_in l es -> leaves_in (v :: l) es.

(** The number [n] in decimal with at least two digits and no further leading zero. *)
Definition label (n : Z) (s : str) : Prop :=
  exists ds, s = map (fun d => 48 + d)%N ds /\ Forall (fun d => d < 10)%N ds /\ place_value ds = n
    /\ (2 <= length ds)%nat /\ forall d r, ds = d :: r -> (2 < length ds)%nat -> d <> 0%N.

(** The lines of [m] with [n] blanks before every line but the first. *)
Definition hanging (n : nat) (m r : str) : Prop :=
  exists l ls, m = join [10%N] (l :: ls) /\ Forall (fun x => ~ In 10%N x) (l :: ls)
    /\ r = join [10%N] (l :: map (fun x => repeat 32%N n ++ x) ls).
