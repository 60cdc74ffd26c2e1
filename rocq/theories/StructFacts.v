(** * Loops over children (proofs only; no model content). *)
From Coq Require Import ZifyBool ZifyN ZifyNat.
From Verif Require Import PyBaseFacts NumFacts Induct Spec ProcessFacts ScalarProofs.

Lemma index_seg_eq i : idx_seg i = index_seg i.
Proof. unfold idx_seg, index_seg. do 2 f_equal. destruct i; reflexivity. Qed.

Lemma pointwise_nil {A B} (R : nat -> A -> B -> Prop) : pointwise R [] [].
Proof. split; [reflexivity|]. intros [|i] a b H; discriminate. Qed.

Lemma pointwise_cons {A B} (R : nat -> A -> B -> Prop) a b l m :
  pointwise R (a :: l) (b :: m) <-> R O a b /\ pointwise (fun i => R (S i)) l m.
Proof.
  unfold pointwise. cbn [length]. split.
  - intros [Hl H]. split; [apply (H O); reflexivity|]. split; [congruence|].
    intros i x y Hx Hy. apply (H (S i)); assumption.
  - intros [H0 [Hl H]]. split; [congruence|]. intros [|i] x y Hx Hy; cbn in Hx, Hy.
    + congruence.
    + eauto.
Qed.

Lemma pointwise_impl {A B} (R R' : nat -> A -> B -> Prop) l m :
  (forall i a b, R i a b -> R' i a b) -> pointwise R l m -> pointwise R' l m.
Proof. intros H [Hl Hp]. split; eauto. Qed.

Lemma pointwise_nil_inv {A B} (R : nat -> A -> B -> Prop) m : pointwise R [] m -> m = [].
Proof. intros [H _]. destruct m; [reflexivity|discriminate]. Qed.

Lemma pointwise_cons_inv {A B} (R : nat -> A -> B -> Prop) a l m :
  pointwise R (a :: l) m -> exists b m', m = b :: m' /\ R O a b /\ pointwise (fun i => R (S i)) l m'.
Proof.
  intros H. destruct m as [|b m]; [destruct H; discriminate|].
  exists b, m. apply pointwise_cons in H. destruct H. auto.
Qed.

(** Running a list of children and collecting. *)
Fixpoint collect_all (outs : list (res val)) : res (list val * bool) :=
  match outs with
  | [] => Ok ([], true)
  | o :: outs' =>
      do x <- collect o; do r <- collect_all outs'; Ok (fst x :: fst r, snd x && snd r)
  end.

Definition is_ok (o : res val) : bool := match o with Ok _ => true | _ => false end.

Lemma is_ok_accepted o : is_ok o = true <-> accepted o.
Proof.
  unfold accepted. destruct o; cbn; split; intros H; try discriminate; eauto.
  destruct H; discriminate.
Qed.

Lemma collect_all_ok outs es b :
  collect_all outs = Ok (es, b) <-> Forall2 recorded outs es /\ b = forallb is_ok outs.
Proof.
  revert es b. induction outs as [|o outs IH]; intros es b; cbn [collect_all forallb].
  - split; [intros [= <- <-]; auto | intros [H ->]; inversion H; reflexivity].
  - destruct o as [v|[e|x]]; cbn [collect bind is_ok].
    + destruct (collect_all outs) as [[es' b']|x] eqn:Hc; cbn [bind fst snd].
      * split.
        -- intros [= <- <-]. destruct (proj1 (IH es' b') eq_refl) as [H1 ->].
           split; [constructor; [left; reflexivity|exact H1]|reflexivity].
        -- intros [H ->]. inversion H as [|? y ? ys Hy Hys]; subst.
           assert (Heq := proj2 (IH ys (forallb is_ok outs)) (conj Hys eq_refl)). injection Heq as -> ->.
           destruct Hy as [[= <-]|[e' [[=] _]]]. reflexivity.
      * split; [discriminate|]. intros [H ->]. inversion H as [|? y ? ys Hy Hys]; subst.
        specialize (proj2 (IH ys (forallb is_ok outs)) (conj Hys eq_refl)). discriminate.
    + destruct (collect_all outs) as [[es' b']|x] eqn:Hc; cbn [bind fst snd].
      * split.
        -- intros [= <- <-]. destruct (proj1 (IH es' b') eq_refl) as [H1 ->].
           split; [constructor; [right; exists e; auto|exact H1]|reflexivity].
        -- intros [H ->]. inversion H as [|? y ? ys Hy Hys]; subst.
           assert (Heq := proj2 (IH ys (forallb is_ok outs)) (conj Hys eq_refl)). injection Heq as -> ->.
           destruct Hy as [[=]|[e' [[= <-] ->]]]. reflexivity.
      * split; [discriminate|]. intros [H ->]. inversion H as [|? y ? ys Hy Hys]; subst.
        specialize (proj2 (IH ys (forallb is_ok outs)) (conj Hys eq_refl)). discriminate.
    + split; [discriminate|]. intros [H ->]. inversion H as [|? y ? ys Hy Hys]; subst.
      destruct Hy as [[=]|[e' [[=] _]]].
Qed.

Lemma collect_all_raise outs x :
  collect_all outs = Raise x <->
  exists pre e post, outs = pre ++ Raise (XPy e) :: post /\ Forall orderly pre /\ x = XPy e.
Proof.
  induction outs as [|o outs IH]; cbn [collect_all].
  - split; [discriminate|]. intros [pre [e [post [H _]]]]. destruct pre; discriminate.
  - destruct o as [v|[e|y]]; cbn [collect bind].
    + destruct (collect_all outs) as [[es' b']|x'] eqn:Hc; cbn [bind fst snd].
      * split; [discriminate|]. intros [pre [e [post [H1 [H2 ->]]]]].
        destruct pre as [|o' pre]; [discriminate|]. cbn in H1. injection H1 as <- H1.
        inversion H2; subst.
        assert (HX : Ok (es', b') = @Raise (list val * bool) (XPy e)) by (apply IH; eauto 8). discriminate.
      * split.
        -- intros [= ->]. destruct (proj1 IH eq_refl) as [pre [e [post [H1 [H2 ->]]]]].
           exists (Ok v :: pre), e, post. subst outs. split; [reflexivity|]. split; [|reflexivity].
           constructor; [intros z; discriminate|exact H2].
        -- intros [pre [e [post [H1 [H2 ->]]]]].
           destruct pre as [|o' pre]; [discriminate|]. cbn in H1. injection H1 as <- H1.
           inversion H2; subst. apply IH. eauto 8.
    + destruct (collect_all outs) as [[es' b']|x'] eqn:Hc; cbn [bind fst snd].
      * split; [discriminate|]. intros [pre [e' [post [H1 [H2 ->]]]]].
        destruct pre as [|o' pre]; [discriminate|]. cbn in H1. injection H1 as <- H1.
        inversion H2; subst.
        assert (HX : Ok (es', b') = @Raise (list val * bool) (XPy e')) by (apply IH; eauto 8). discriminate.
      * split.
        -- intros [= ->]. destruct (proj1 IH eq_refl) as [pre [e' [post [H1 [H2 ->]]]]].
           exists (Raise (XErr e) :: pre), e', post. subst outs. split; [reflexivity|]. split; [|reflexivity].
           constructor; [intros z; discriminate|exact H2].
        -- intros [pre [e' [post [H1 [H2 ->]]]]].
           destruct pre as [|o' pre]; [discriminate|]. cbn in H1. injection H1 as <- H1.
           inversion H2; subst. apply IH. eauto 8.
    + split.
      * intros [= <-]. exists [], y, outs. auto.
      * intros [pre [e [post [H1 [H2 ->]]]]]. destruct pre as [|o' pre].
        -- cbn in H1. injection H1 as -> _. reflexivity.
        -- cbn in H1. injection H1 as <- H1. inversion H2 as [|? ? Ho _]; subst.
           exfalso. eapply Ho. reflexivity.
Qed.

Fixpoint imap {A B} (f : nat -> A -> B) (i : nat) (l : list A) : list B :=
  match l with
  | [] => []
  | a :: l' => f i a :: imap f (S i) l'
  end.

Lemma imap_length {A B} (f : nat -> A -> B) i l : length (imap f i l) = length l.
Proof. revert i. induction l as [|a l IH]; intros i; cbn; congruence. Qed.

Lemma imap_nth {A B} (f : nat -> A -> B) i l j :
  nth_error (imap f i l) j = option_map (f (i + j)%nat) (nth_error l j).
Proof.
  revert i j. induction l as [|a l IH]; intros i [|j]; cbn; auto.
  - rewrite Nat.add_0_r. reflexivity.
  - rewrite IH. replace (S i + j)%nat with (i + S j)%nat by lia. reflexivity.
Qed.

Lemma imap_app {A B} (f : nat -> A -> B) i l m :
  imap f i (l ++ m) = imap f i l ++ imap f (i + length l) m.
Proof.
  revert i. induction l as [|a l IH]; intros i; cbn [app imap length].
  - rewrite Nat.add_0_r. reflexivity.
  - rewrite IH. replace (S i + length l)%nat with (i + S (length l))%nat by lia. reflexivity.
Qed.

Lemma Forall2_imap {A} (f : nat -> A -> res val) i l es :
  Forall2 recorded (imap f i l) es <-> pointwise (fun j a e => recorded (f (i + j)%nat a) e) l es.
Proof.
  revert i es. induction l as [|a l IH]; intros i es; cbn [imap].
  - split; [intros H; inversion H; apply pointwise_nil | intros H; apply pointwise_nil_inv in H; subst; constructor].
  - split.
    + intros H. inversion H as [|? e ? es' He Hes]; subst. apply pointwise_cons.
      rewrite Nat.add_0_r. split; [exact He|]. apply IH in Hes.
      eapply pointwise_impl; [|exact Hes]. intros j x y. cbn beta.
      replace (S i + j)%nat with (i + S j)%nat by lia. auto.
    + intros H. apply pointwise_cons_inv in H. destruct H as [e [es' [-> [He Hes]]]].
      rewrite Nat.add_0_r in He. constructor; [exact He|]. apply IH.
      eapply pointwise_impl; [|exact Hes]. intros j x y. cbn beta.
      replace (S i + j)%nat with (i + S j)%nat by lia. auto.
Qed.

Lemma forallb_imap {A} (f : nat -> A -> res val) i l :
  forallb is_ok (imap f i l) = true <->
  forall j a, nth_error l j = Some a -> accepted (f (i + j)%nat a).
Proof.
  revert i. induction l as [|a l IH]; intros i; cbn [imap forallb].
  - split; [intros _ [|j] a H; discriminate | reflexivity].
  - rewrite andb_true_iff, is_ok_accepted, IH. split.
    + intros [H1 H2] [|j] x Hx; cbn in Hx.
      * injection Hx as <-. rewrite Nat.add_0_r. exact H1.
      * replace (i + S j)%nat with (S i + j)%nat by lia. auto.
    + intros H. split; [specialize (H O a eq_refl); rewrite Nat.add_0_r in H; exact H|].
      intros j x Hx. specialize (H (S j) x Hx). replace (S i + j)%nat with (i + S j)%nat by lia. exact H.
Qed.

Lemma orderly_recorded o : orderly o <-> exists e, recorded o e.
Proof.
  unfold orderly, recorded. destruct o as [v|[e|x]]; split; intros H; eauto; try discriminate.
  - exfalso. eapply H. reflexivity.
  - intros y [= ->]. destruct H as [e [H|[e' [H _]]]]; discriminate.
Qed.

(** ** Undefined placeholders *)

Lemma defined_fparams E f q : defined_as E f q <-> fparams E f = Some q.
Proof.
  unfold defined_as, fparams. destruct f as [i|p k].
  - split; [intros [k ->]; reflexivity|].
    destruct (e_undef E i) as [[|p k]|]; try discriminate. intros [= ->]. eauto.
  - split; [intros ->; reflexivity|]. intros [= ->]. reflexivity.
Qed.

Lemma defined_undefined E f : defined E f -> undefined E f = false.
Proof. intros [q H]. apply defined_fparams in H. unfold undefined. rewrite H. reflexivity. Qed.

Lemma wrap_defined E f r : defined E f -> wrap_undef E f r = r.
Proof.
  intros H. unfold wrap_undef. rewrite (defined_undefined E f H). destruct r as [|[|[]]]; reflexivity.
Qed.

(** ** The loops as collections of outcomes *)

Lemma seq_loop_outs E c ph ser anc i l :
  seq_loop E c ph ser anc i l
  = collect_all (imap (fun j v => wrap_undef E (fst c) (snd c ph ser (anc ++ [idx_seg j]) v)) i l).
Proof. revert i. induction l as [|v l IH]; intros i; cbn; [reflexivity|]. rewrite IH. reflexivity. Qed.

Lemma tuple_loop_outs E cs ph ser anc i v l :
  (forall j, (j < length l)%nat -> py_index E v (i + j) = match nth_error l j with Some x => Ok x | None => py IndexError end) ->
  length cs = length l ->
  tuple_loop E cs ph ser anc i v
  = collect_all (imap (fun j cv => wrap_undef E (fst (fst cv))
                                     (snd (fst cv) ph ser (anc ++ [idx_seg j]) (snd cv))) i (combine cs l)).
Proof.
  revert i cs. induction l as [|x l IH]; intros i [|c cs] Hidx Hlen; try discriminate; cbn; [reflexivity|].
  assert (H0 := Hidx O ltac:(cbn; lia)). rewrite Nat.add_0_r in H0. rewrite H0. cbn.
  rewrite (IH (S i) cs); [reflexivity| |cbn in Hlen; congruence].
  intros j Hj. replace (S i + j)%nat with (i + S j)%nat by lia. rewrite Hidx by (cbn; lia). reflexivity.
Qed.

(** ** Traversals *)

Fixpoint traverse {A B} (f : A -> res B) (l : list A) : res (list B) :=
  match l with
  | [] => Ok []
  | a :: l' => do b <- f a; do bs <- traverse f l'; Ok (b :: bs)
  end.

Lemma traverse_ok {A B} (f : A -> res B) l bs :
  traverse f l = Ok bs <-> Forall2 (fun a b => f a = Ok b) l bs.
Proof.
  revert bs. induction l as [|a l IH]; intros bs; cbn [traverse].
  - split; [intros [= <-]; constructor | intros H; inversion H; reflexivity].
  - split.
    + intros H. apply bind_Ok in H. destruct H as [b [Hb H]]. apply bind_Ok in H.
      destruct H as [bs' [Hbs H]]. injection H as <-. constructor; [exact Hb|]. apply IH, Hbs.
    + intros H. inversion H as [|? b ? bs' Hb Hbs]; subst. rewrite Hb. cbn [bind].
      apply IH in Hbs. rewrite Hbs. reflexivity.
Qed.

Lemma traverse_raise {A B} (f : A -> res B) l x :
  traverse f l = Raise x <->
  exists pre a post, l = pre ++ a :: post /\ f a = Raise x /\ Forall (fun b => exists c, f b = Ok c) pre.
Proof.
  induction l as [|a l IH]; cbn [traverse].
  - split; [discriminate|]. intros [pre [c [post [H _]]]]; destruct pre; discriminate.
  - destruct (f a) as [b|y] eqn:Hf; cbn [bind].
    + split.
      * intros H. apply bind_Raise in H. destruct H as [H|[bs [_ H]]]; [|discriminate].
        apply IH in H. destruct H as [pre [c [post [-> [Hc Hpre]]]]].
        exists (a :: pre), c, post. split; [reflexivity|]. split; [exact Hc|]. constructor; eauto.
      * intros [[|d pre] [c [post [H [Hc Hpre]]]]]; cbn in H; injection H as -> H.
        -- congruence.
        -- inversion Hpre; subst. assert (Ht : traverse f (pre ++ c :: post) = Raise x).
           { apply IH. exists pre, c, post. auto. }
           rewrite Ht. reflexivity.
    + split.
      * intros [= ->]. exists [], a, l. auto.
      * intros [[|d pre] [c [post [H [Hc Hpre]]]]]; cbn in H; injection H as -> H.
        -- congruence.
        -- inversion Hpre as [|? ? [z Hz] _]; subst. congruence.
Qed.

Lemma Forall2_impl {A B} (R S : A -> B -> Prop) l m :
  (forall a b, R a b -> S a b) -> Forall2 R l m -> Forall2 S l m.
Proof. intros H F. induction F; constructor; auto. Qed.

(** ** Dicts *)

Lemma dget_app_none L k l m : dget L k l = None -> dget L k (l ++ m) = dget L k m.
Proof.
  induction l as [|[k' v'] l IH]; cbn; [auto|]. destruct (veq L k' k); [discriminate|]. exact IH.
Qed.

Lemma dget_none L k l : dget L k l = None <-> forall k', In k' (map fst l) -> veq L k' k = false.
Proof.
  induction l as [|[k' v'] l IH]; cbn; [split; [intros _ k' []|reflexivity]|].
  destruct (veq L k' k) eqn:He; split.
  - discriminate.
  - intros H. specialize (H k' (or_introl eq_refl)). congruence.
  - intros H k0 [<-|Hin]; [exact He|]. apply IH; auto.
  - intros H. apply IH. intros k0 Hin. apply H. auto.
Qed.

Lemma dset_new L k v l : dget L k l = None -> dset L k v l = l ++ [(k, v)].
Proof.
  induction l as [|[k' v'] l IH]; cbn; [reflexivity|].
  destruct (veq L k' k); [discriminate|]. intros H. rewrite IH by exact H. reflexivity.
Qed.

Lemma distinct_app L l m :
  distinct L (l ++ m) <->
  distinct L l /\ distinct L m /\ (forall a b, In a l -> In b m -> veq L a b = false).
Proof.
  induction l as [|a l IH]; cbn [app distinct].
  - split; [intros H; split; [exact I|]; split; [exact H|intros a b []] | intros [_ [H _]]; exact H].
  - rewrite IH. split.
    + intros [H [H1 [H2 H3]]]. repeat split; auto.
      * intros k' Hk. apply H, in_or_app. auto.
      * intros x b [<-|Hx] Hb; [apply H, in_or_app; auto|auto].
    + intros [[H H1] [H2 H3]]. split.
      * intros k' Hk. apply in_app_or in Hk. destruct Hk; [auto|apply H3; [left; reflexivity|assumption]].
      * repeat split; auto. intros x b Hx Hb. apply H3; [right; exact Hx|exact Hb].
Qed.

Lemma set_all_new L es acc :
  distinct L (map fst (acc ++ es)) -> set_all L es acc = acc ++ es.
Proof.
  revert acc. induction es as [|[k e] es IH]; intros acc H; cbn [set_all fold_left fst snd].
  - rewrite app_nil_r. reflexivity.
  - assert (Hd := H). rewrite map_app in H. apply distinct_app in H. destruct H as [H1 [H2 H3]].
    rewrite dset_new.
    + change (set_all L es (acc ++ [(k, e)]) = acc ++ (k, e) :: es).
      rewrite IH; rewrite <- app_assoc; [reflexivity|exact Hd].
    + apply dget_none. intros k' Hk'. apply H3; [exact Hk'|left; reflexivity].
Qed.
