(** * Vocabulary of the claims about util.py (C68 to C70). *)
From Verif Require Export Spec Util.

(** ** Paths of strings *)

(** [v] is a dict whose item at the key [k] is [x]. *)
Definition item_at (v : val) (k : str) (x : val) : Prop :=
  exists pre post, as_dict v = Some (pre ++ (VStr k, x) :: post) /\ ~ In (VStr k) (map fst pre).
Definition no_item (v : val) (k : str) : Prop :=
  exists l, as_dict v = Some l /\ ~ In (VStr k) (map fst l).

(** Following the keys [segs] from [v] leads to [x]. *)
Inductive follows : val -> list str -> val -> Prop :=
| fo_here : forall v, follows v [] v
| fo_step : forall v k sub segs x, item_at v k sub -> follows sub segs x -> follows v (k :: segs) x.

(** Dotted notation of a path. *)
Definition dotted (segs : list str) (path : str) : Prop :=
  segs <> [] /\ Forall (fun s => ~ In 46%N s) segs /\ path = join [46%N] segs.

(** Neither of two paths is the beginning of the other. *)
Definition apart (p q : list str) : Prop := (forall r, q <> p ++ r) /\ (forall r, p <> q ++ r).

(** ** Paths of keys up to equality *)

(** [v] is a dict whose item at a key equal to [k] is [x]. *)
Definition value_at (L : localtz) (v k x : val) : Prop :=
  exists pre k' post, as_dict v = Some (pre ++ (k', x) :: post) /\ veq L k' k = true
    /\ Forall (fun kv => veq L (fst kv) k = false) pre.
Inductive holds (L : localtz) : val -> list val -> val -> Prop :=
| ho_here : forall v, holds L v [] v
| ho_step : forall v k sub path x, value_at L v k sub -> holds L sub path x -> holds L v (k :: path) x.
(** A leaf is anything but a dict. *)
Definition leaf (L : localtz) (v : val) (path : list val) (x : val) : Prop :=
  holds L v path x /\ as_dict x = None.

(** On [K], Python equality is an equivalence. *)
Definition well_compared (L : localtz) (K : val -> Prop) : Prop :=
  (forall a, K a -> veq L a a = true)
  /\ (forall a b, K a -> K b -> veq L a b = true -> veq L b a = true)
  /\ (forall a b c, K a -> K b -> K c -> veq L a b = true -> veq L b c = true -> veq L a c = true).

(** All keys of [v] and of the dicts below are in [K]. *)
Inductive keyed (K : val -> Prop) : val -> Prop :=
| keyed_all : forall v,
    (forall l, as_dict v = Some l -> forall kv, In kv l -> K (fst kv) /\ keyed K (snd kv)) -> keyed K v.

(** ** Texts *)

Definition blank (s : str) : Prop := Forall (fun c => is_space c = true) s.
Definition word (s : str) : Prop := s <> [] /\ Forall (fun c => is_space c = false) s.

(** [words s ws]: the text [s] consists of the words [ws] separated by white space. *)
Inductive words : str -> list str -> Prop :=
| wo_none : forall g, blank g -> words g []
| wo_last : forall g w, blank g -> word w -> words (g ++ w) [w]
| wo_more : forall g w c r ws, blank g -> word w -> is_space c = true -> words (c :: r) ws ->
    words (g ++ w ++ c :: r) (w :: ws).

Definition ends_in (w suf : str) : Prop := exists x, w = x ++ suf.

(** English plurals: the first rule that applies. *)
Inductive plural (w : str) : str -> Prop :=
| pl_ife : forall x, w = x ++ $"ife" -> plural w (x ++ $"ives")
| pl_eau : forall x, w = x ++ $"eau" -> plural w (x ++ $"eaux")
| pl_lf : forall x, w = x ++ $"lf" -> plural w (x ++ $"lves")
| pl_sibilant : forall x c, w = x ++ [c] -> In c $"sxz" -> plural w (w ++ $"es")
| pl_h : forall x c, w = x ++ [c] ++ $"h" -> ~ In c $"aeioudgkprt" -> plural w (w ++ $"es")
| pl_y : forall x c, w = x ++ [c] ++ $"y" -> ~ In c $"aeiou" -> plural w (x ++ [c] ++ $"ies")
| pl_quy : forall x, w = x ++ $"quy" -> plural w (x ++ $"quies")
| pl_other :
    ~ ends_in w $"ife" -> ~ ends_in w $"eau" -> ~ ends_in w $"lf" ->
    (forall x c, w = x ++ [c] -> ~ In c $"sxz") ->
    (forall x c, w = x ++ [c] ++ $"h" -> In c $"aeioudgkprt") ->
    (forall x c, w = x ++ [c] ++ $"y" -> In c $"aeiou") ->
    ~ ends_in w $"quy" ->
    plural w (w ++ $"s").
