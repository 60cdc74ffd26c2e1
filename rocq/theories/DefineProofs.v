(** * Placeholders being defined (C99). *)
(* @imports DefineSpec *)
From Coq Require Import Lia.
From Verif Require Import DefineSpec.

Definition get (ps : list (list slot)) (i j : nat) : option slot :=
  match nth_error ps i with Some l => nth_error l j | None => None end.

Lemma replaced_length {A} i (x : A) l : i < length l -> length (replaced i x l) = length l.
Proof.
  intros H. unfold replaced. rewrite !app_length, firstn_length, skipn_length. cbn [length]. lia.
Qed.

Lemma replaced_same {A} (x : A) : forall l i, i < length l -> nth_error (replaced i x l) i = Some x.
Proof.
  unfold replaced. induction l as [|a l IH]; intros [|i] H; cbn in *; try lia; [reflexivity|]. apply IH. lia.
Qed.

Lemma replaced_other {A} (x : A) : forall l i j, i < length l -> i <> j -> nth_error (replaced i x l) j = nth_error l j.
Proof.
  unfold replaced. induction l as [|a l IH]; intros [|i] [|j] H Hne; cbn in *; try lia; try reflexivity.
  apply IH; lia.
Qed.

Lemma nth_some {A} (l : list A) i x : nth_error l i = Some x -> i < length l.
Proof. intros H. apply nth_error_Some. congruence. Qed.

Lemma get_call f ps c i j : get ps (fst c) (snd c) <> None ->
  get (call_back f ps c) i j = (if (Nat.eqb (fst c) i && Nat.eqb (snd c) j)%bool then Some (SField f) else get ps i j)
  /\ length (call_back f ps c) = length ps.
Proof.
  unfold get, call_back. destruct (nth_error ps (fst c)) as [l|] eqn:Hl; [|intros []; reflexivity].
  intros Hc. assert (Hj : snd c < length l) by (apply nth_error_Some, Hc). assert (Hi := nth_some _ _ _ Hl).
  split; [|apply replaced_length, Hi].
  destruct (Nat.eqb (fst c) i) eqn:Ei; cbn [andb].
  - apply Nat.eqb_eq in Ei. subst i. rewrite replaced_same by exact Hi. rewrite Hl.
    destruct (Nat.eqb (snd c) j) eqn:Ej.
    + apply Nat.eqb_eq in Ej. subst j. apply replaced_same, Hj.
    + apply Nat.eqb_neq in Ej. apply replaced_other; assumption.
  - apply Nat.eqb_neq in Ei. rewrite replaced_other by assumption. reflexivity.
Qed.

Lemma get_calls f cs : forall ps, (forall c, In c cs -> get ps (fst c) (snd c) <> None) ->
  length (fold_left (call_back f) cs ps) = length ps
  /\ forall i j, (In (i, j) cs -> get (fold_left (call_back f) cs ps) i j = Some (SField f))
              /\ (~ In (i, j) cs -> get (fold_left (call_back f) cs ps) i j = get ps i j).
Proof.
  induction cs as [|c cs IH]; intros ps H; cbn [fold_left]; [split; [reflexivity|]; intros; split; [intros []|reflexivity]|].
  assert (Hc := fun i j => get_call f ps c i j (H c (or_introl eq_refl))).
  destruct (IH (call_back f ps c)) as [Hlen Hget].
  { intros c' Hc'. rewrite (proj1 (Hc _ _)). destruct (_ && _)%bool; [discriminate|]. apply H. right. exact Hc'. }
  split; [rewrite Hlen; apply (Hc 0 0)|]. intros i j. destruct (Hget i j) as [Hin Hout]. split.
  - intros [-> |Hi]; [|apply Hin, Hi].
    assert (Hd : In (i, j) cs \/ ~ In (i, j) cs)
      by (destruct (in_dec (fun a b : nat * nat => ltac:(decide equality; apply Nat.eq_dec)) (i, j) cs); auto).
    destruct Hd as [Hd|Hd]; [apply Hin, Hd|]. rewrite (Hout Hd), (proj1 (Hc i j)). cbn [fst snd]. rewrite !Nat.eqb_refl. reflexivity.
  - intros Hno. rewrite Hout by (intros Hi; apply Hno; right; exact Hi). rewrite (proj1 (Hc i j)).
    destruct (Nat.eqb (fst c) i && Nat.eqb (snd c) j)%bool eqn:Hb; [|reflexivity].
    exfalso. apply Hno. left. apply andb_prop in Hb. destruct Hb as [Hi Hj]. apply Nat.eqb_eq in Hi, Hj.
    destruct c; cbn in *; congruence.
Qed.

(** What stands for [s] when placeholders were defined as [at0] at construction and are as [now]. *)
Definition stands (at0 now : nat -> option nat) (s : slot) : slot :=
  match s with
  | SField f => SField f
  | SUndef u => match at0 u with
                | Some f => SField f
                | None => match now u with Some f => SField f | None => SUndef u end
                end
  end.

Lemma build_spec parent l : forall i h,
  fst (build parent i l h) = map (stands (h_field h) (h_field h)) l
  /\ h_field (snd (build parent i l h)) = h_field h
  /\ h_parents (snd (build parent i l h)) = h_parents h
  /\ forall u c, In c (h_calls (snd (build parent i l h)) u)
       <-> In c (h_calls h u) \/ exists j, c = (parent, i + j) /\ nth_error l j = Some (SUndef u) /\ h_field h u = None.
Proof.
  induction l as [|[f|w] l IH]; intros i h; cbn [build map stands].
  - repeat split; auto. intros [H|[j [_ [H _]]]]; [exact H|destruct j; discriminate].
  - destruct (IH (S i) h) as [H1 [H2 [H3 H4]]]. cbn [fst snd]. rewrite H1, H2, H3. repeat split.
    + intros H. apply H4 in H. destruct H as [H|[j [-> H]]]; [left; exact H|]. right. exists (S j). split; [f_equal; lia|exact H].
    + intros [H|[j [-> H]]]; apply H4; [left; exact H|]. destruct j as [|j]; [destruct H as [H _]; discriminate H|].
      right. exists j. split; [f_equal; lia|exact H].
  - destruct (h_field h w) as [f|] eqn:Hw; cbn [fst snd].
    + destruct (IH (S i) h) as [H1 [H2 [H3 H4]]]. rewrite H1, H2, H3. repeat split.
      * intros H. apply H4 in H. destruct H as [H|[j [-> H]]]; [left; exact H|]. right. exists (S j). split; [f_equal; lia|exact H].
      * intros [H|[j [-> H]]]; apply H4; [left; exact H|].
        destruct j as [|j]; [destruct H as [[= ->] H]; congruence|]. right. exists j. split; [f_equal; lia|exact H].
    + destruct (IH (S i) (register w (parent, i) h)) as [H1 [H2 [H3 H4]]]. cbn [register h_field h_calls h_parents] in *.
      rewrite H1, H2, H3. repeat split.
      * intros H. apply H4 in H. destruct H as [H|[j [-> H]]].
        -- destruct (Nat.eqb u w) eqn:Hu; [|left; exact H]. apply Nat.eqb_eq in Hu. subst u.
           apply in_app_or in H. destruct H as [H|[<-|[]]]; [left; exact H|].
           right. exists 0. split; [f_equal; lia|]. split; [reflexivity|exact Hw].
        -- right. exists (S j). split; [f_equal; lia|exact H].
      * intros [H|[j [-> H]]]; apply H4.
        -- left. destruct (Nat.eqb u w); [apply in_or_app; left|]; exact H.
        -- destruct j as [|j].
           ++ destruct H as [[= ->] _]. left. rewrite Nat.eqb_refl. apply in_or_app. right. left. f_equal. lia.
           ++ right. exists j. split; [f_equal; lia|exact H].
Qed.

(** The invariant: [G] lists what the containers were given and what was defined then. *)
Definition inv (h : heap) (G : list (list slot * (nat -> option nat))) : Prop :=
  length G = length (h_parents h)
  /\ (forall i l at0, nth_error G i = Some (l, at0) ->
        forall j, get (h_parents h) i j = option_map (stands at0 (h_field h)) (nth_error l j))
  /\ (forall u i j, In (i, j) (h_calls h u) <->
        exists l at0, nth_error G i = Some (l, at0) /\ nth_error l j = Some (SUndef u) /\ at0 u = None).

Definition gstep (st : heap * list (list slot * (nat -> option nat))) (o : op) :=
  (step (fst st) o, match o with Construct l => snd st ++ [(l, h_field (fst st))] | _ => snd st end).

Lemma inv_step h G o : inv h G -> inv (fst (gstep (h, G) o)) (snd (gstep (h, G) o)).
Proof.
  intros [HL [HG HC]]. destruct o as [l|u f]; cbn [gstep fst snd step].
  - unfold construct. destruct (build_spec (length (h_parents h)) l 0 h) as [H1 [H2 [H3 H4]]].
    split; [|split]; cbn [h_field h_calls h_parents].
    + rewrite !app_length, H3, HL. reflexivity.
    + rewrite H1, H2, H3. intros i l' at0 Hi j. unfold get in *.
      destruct (Nat.lt_ge_cases i (length G)) as [Hlt|Hge].
      * rewrite nth_error_app1 in Hi by exact Hlt. rewrite nth_error_app1 by lia. apply HG, Hi.
      * rewrite nth_error_app2 in Hi by exact Hge. rewrite nth_error_app2 by lia. rewrite <- HL.
        destruct (i - length G) as [|k]; [|destruct k; discriminate]. cbn in Hi |- *. injection Hi as <- <-. apply nth_error_map.
    + intros u i j. rewrite H4. split.
      * intros [H|[k [[= -> ->] [Hk Hu]]]].
        -- apply HC in H. destruct H as [l' [at0 [Hi H]]]. exists l', at0. split; [|exact H].
           rewrite nth_error_app1; [exact Hi|]. eapply nth_some, Hi.
        -- exists l, (h_field h). rewrite nth_error_app2 by lia. rewrite HL, Nat.sub_diag. auto.
      * intros [l' [at0 [Hi H]]]. destruct (Nat.lt_ge_cases i (length G)) as [Hlt|Hge].
        -- left. apply HC. exists l', at0. rewrite nth_error_app1 in Hi by exact Hlt. auto.
        -- right. rewrite nth_error_app2 in Hi by exact Hge.
           destruct (i - length G) as [|k] eqn:Hk; [|destruct k; discriminate]. cbn in Hi. injection Hi as <- <-.
           exists j. split; [f_equal; lia|exact H].
  - assert (Hr : forall c, In c (h_calls h u) -> get (h_parents h) (fst c) (snd c) <> None).
    { intros [i j] Hc. apply HC in Hc. destruct Hc as [l [at0 [Hi [Hj _]]]]. cbn [fst snd]. rewrite (HG _ _ _ Hi j), Hj. discriminate. }
    destruct (get_calls f (h_calls h u) (h_parents h) Hr) as [Hlen Hget].
    split; [|split]; cbn [define h_field h_calls h_parents].
    + rewrite Hlen. exact HL.
    + intros i l at0 Hi j. destruct (Hget i j) as [Hin Hout].
      assert (Hd : In (i, j) (h_calls h u) \/ ~ In (i, j) (h_calls h u))
        by (destruct (in_dec (fun a b : nat * nat => ltac:(decide equality; apply Nat.eq_dec)) (i, j) (h_calls h u)); auto).
      destruct Hd as [Hd|Hd].
      * rewrite (Hin Hd). apply HC in Hd. destruct Hd as [l' [at1 [Hi' [Hj Hu]]]]. rewrite Hi in Hi'. injection Hi' as <- <-.
        rewrite Hj. cbn [option_map stands]. rewrite Hu, Nat.eqb_refl. reflexivity.
      * rewrite (Hout Hd), (HG _ _ _ Hi j). destruct (nth_error l j) as [[g|w]|] eqn:Hj; cbn [option_map stands]; try reflexivity.
        destruct (at0 w) as [g|] eqn:Hw; [reflexivity|]. destruct (Nat.eqb w u) eqn:Hu; [|reflexivity].
        exfalso. apply Nat.eqb_eq in Hu. subst w. apply Hd. apply HC. exists l, at0. auto.
    + exact HC.
Qed.

Lemma latest_app u a b : latest u (a ++ b) = match latest u b with Some f => Some f | None => latest u a end.
Proof.
  induction a as [|[l|w f] a IH]; cbn [latest app]; [destruct (latest u b); reflexivity|exact IH|].
  rewrite IH. destruct (latest u b); reflexivity.
Qed.

Lemma fold_field ops : forall h u,
  h_field (fold_left step ops h) u = match latest u ops with Some f => Some f | None => h_field h u end.
Proof.
  induction ops as [|[l|w f] ops IH]; intros h u; cbn [fold_left latest step]; [reflexivity| |].
  - rewrite IH. unfold construct. cbn [h_field]. destruct (build_spec (length (h_parents h)) l 0 h) as [_ [-> _]]. reflexivity.
  - rewrite IH. cbn [define h_field]. destruct (latest u ops); [reflexivity|]. rewrite Nat.eqb_sym. destruct (Nat.eqb w u); reflexivity.
Qed.

Lemma ghost ops : forall st, inv (fst st) (snd st) ->
  inv (fold_left step ops (fst st)) (snd (fold_left gstep ops st)) /\ fst (fold_left gstep ops st) = fold_left step ops (fst st)
  /\ exists more, snd (fold_left gstep ops st) = snd st ++ more /\ length more = constructed ops.
Proof.
  induction ops as [|o ops IH]; intros [h G] Hi; cbn [fold_left].
  - split; [exact Hi|]. split; [reflexivity|]. exists []. rewrite app_nil_r. auto.
  - destruct (IH (gstep (h, G) o) (inv_step h G o Hi)) as [H1 [H2 [more [H3 H4]]]]. split; [exact H1|]. split; [exact H2|].
    destruct o as [l|u f]; cbn [gstep snd fst constructed] in *.
    + exists ((l, h_field h) :: more). rewrite H3, <- app_assoc. split; [reflexivity|]. cbn. congruence.
    + exists more. auto.
Qed.

Lemma nth_error_all {A} (l l' : list A) : (forall j, nth_error l j = nth_error l' j) -> l = l'.
Proof.
  revert l'. induction l as [|a l IH]; intros [|b l'] H; [reflexivity|discriminate (H 0)|discriminate (H 0)|].
  f_equal; [|apply IH; intros j; exact (H (S j))]. assert (H0 := H 0). cbn in H0. congruence.
Qed.

(** @prop C99 Whatever fields are constructed and whatever placeholders are defined, in any order: each container
    holds, at each position, the field it was given there; for a placeholder that was defined before, the
    definition it had then; for any other placeholder its latest definition since, and the placeholder itself
    as long as there is none.  No other position is touched. *)
Lemma define_exact :
  forall before l after,
    nth_error (h_parents (run (before ++ Construct l :: after))) (constructed before)
    = Some (map (due before after) l).
Proof.
  intros before l after. unfold run. rewrite fold_left_app. cbn [fold_left].
  assert (H0 : inv heap0 []).
  { split; [reflexivity|]. split; [intros i ? ? H; destruct i; discriminate|]. intros u i j. split; [intros []|].
    intros [? [? [H _]]]. destruct i; discriminate. }
  destruct (ghost before (heap0, []) H0) as [H1 [H2 [m1 [H3 H4]]]]. cbn [fst snd app] in *.
  set (h1 := fold_left step before heap0) in *. rewrite H3 in H1.
  destruct (ghost (Construct l :: after) (h1, m1) H1) as [H5 [H6 [m2 [H7 H8]]]]. cbn [fst snd fold_left] in *.
  destruct (ghost after (gstep (h1, m1) (Construct l)) (inv_step _ _ _ H1)) as [_ [_ [m3 [H9 _]]]].
  cbn [gstep fst snd] in H9. cbn [gstep fst snd] in H5. rewrite H9 in H5.
  set (h2 := fold_left step after (step h1 (Construct l))) in *.
  destruct H5 as [HL [HG _]].
  assert (Hn : nth_error ((m1 ++ [(l, h_field h1)]) ++ m3) (constructed before) = Some (l, h_field h1)).
  { rewrite <- app_assoc. rewrite nth_error_app2 by lia. rewrite H4, Nat.sub_diag. reflexivity. }
  assert (Hlt := nth_some _ _ _ Hn). rewrite HL in Hlt.
  destruct (nth_error (h_parents h2) (constructed before)) as [l2|] eqn:Hl2; [|apply nth_error_None in Hl2; lia].
  f_equal. apply nth_error_all. intros j. assert (Hj := HG _ _ _ Hn j). unfold get in Hj. rewrite Hl2 in Hj. rewrite Hj.
  rewrite nth_error_map. destruct (nth_error l j) as [[g|u]|]; cbn [option_map stands due]; [reflexivity| |reflexivity].
  f_equal. assert (Hf1 : h_field h1 u = latest u before) by (unfold h1; rewrite fold_field; destruct (latest u before); reflexivity).
  rewrite Hf1. destruct (latest u before) as [g|] eqn:Hb; [reflexivity|].
  assert (Hf2 : h_field h2 u = latest u after).
  { unfold h2. rewrite fold_field. destruct (latest u after); [reflexivity|].
    assert (Hc := fold_field [Construct l] h1 u). cbn [fold_left latest] in Hc. rewrite Hc, Hf1. reflexivity. }
  rewrite Hf2. reflexivity.
Qed.

(** @example
(* A tuple of a field, placeholder 0 and placeholder 1 before 0 is defined as the field 7; a union of the
   placeholder afterwards. *)
Example C99_example :
  h_parents (run [Construct [SField 3; SUndef 0; SUndef 1]; Define 0 7; Construct [SUndef 0; SField 4]])
  = [[SField 3; SField 7; SUndef 1]; [SField 7; SField 4]].
Proof. reflexivity. Qed.
@end *)

Lemma latest_unique u f ops : (forall g, In (Define u g) ops -> g = f) -> latest u ops = None \/ latest u ops = Some f.
Proof.
  induction ops as [|[l|w g] ops IH]; intros H; cbn [latest]; [auto|apply IH; intros g Hg; apply H; right; exact Hg|].
  destruct IH as [-> | ->]; [intros g' Hg; apply H; right; exact Hg| |auto].
  destruct (Nat.eqb w u) eqn:Hw; [|auto]. apply Nat.eqb_eq in Hw. subst w. right. f_equal. apply H. left. reflexivity.
Qed.

Lemma latest_none u ops : latest u ops = None -> forall g, ~ In (Define u g) ops.
Proof.
  induction ops as [|[l|w g] ops IH]; cbn [latest]; intros H g' Hg; [destruct Hg| |].
  - destruct Hg as [Hg|Hg]; [discriminate|]. exact (IH H g' Hg).
  - destruct (latest u ops); [discriminate|]. destruct Hg as [[= -> ->]|Hg]; [|exact (IH eq_refl g' Hg)].
    rewrite Nat.eqb_refl in H. discriminate.
Qed.

(** @prop C99 A placeholder defined once is replaced by its definition in every container it was given to, whether
    that was constructed before or after. *)
Lemma define_everywhere_partial :
  forall before l after u f j,
    In (Define u f) (before ++ after) -> (forall g, In (Define u g) (before ++ after) -> g = f) ->
    nth_error l j = Some (SUndef u) ->
    exists held, nth_error (h_parents (run (before ++ Construct l :: after))) (constructed before) = Some held
      /\ nth_error held j = Some (SField f).
Proof.
  intros before l after u f j Hin Huni Hj. eexists. split; [apply define_exact|].
  rewrite nth_error_map, Hj. cbn [option_map due]. f_equal.
  destruct (latest_unique u f before) as [Hb | ->]; [intros g Hg; apply Huni, in_or_app; left; exact Hg| |reflexivity].
  destruct (latest_unique u f after) as [Ha | ->]; [intros g Hg; apply Huni, in_or_app; right; exact Hg| |rewrite Hb; reflexivity].
  exfalso. apply in_app_or in Hin. destruct Hin as [Hin|Hin]; [exact (latest_none _ _ Hb _ Hin)|exact (latest_none _ _ Ha _ Hin)].
Qed.

(** @example
(* Placeholder 0 stands twice in the first container and once in the second; 9 is defined otherwise. *)
Example C99_everywhere_example :
  let before := [Construct [SUndef 0; SUndef 0]; Define 0 7; Define 9 1] in
  let l := [SField 2; SUndef 0] in
  In (Define 0 7) (before ++ []) /\ (forall g, In (Define 0 g) (before ++ []) -> g = 7)
  /\ h_parents (run (before ++ [Construct l])) = [[SField 7; SField 7]; [SField 2; SField 7]].
Proof.
  split; [right; left; reflexivity|]. split; [|reflexivity].
  intros g [H|[H|[H|[]]]]; congruence.
Qed.
@end *)

(** @prop C99 Refuted for placeholders defined again: the containers constructed before the first definition are
    given the second one, those constructed in between keep the first. *)
Lemma define_again_refuted :
  exists ops u f g, f <> g
    /\ ops = [Construct [SUndef u]; Define u f; Construct [SUndef u]; Define u g]
    /\ h_parents (run ops) = [[SField g]; [SField f]].
Proof.
  exists [Construct [SUndef 0]; Define 0 1; Construct [SUndef 0]; Define 0 2], 0, 1, 2.
  split; [discriminate|]. split; reflexivity.
Qed.

(** @example
(* Defined again before anything else is constructed, all is well. *)
Example C99_again_example :
  h_parents (run [Construct [SUndef 0]; Define 0 1; Define 0 2; Construct [SUndef 0]]) = [[SField 2]; [SField 2]].
Proof. reflexivity. Qed.
@end *)
