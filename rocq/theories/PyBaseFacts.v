(** * Lemmas about [PyBase] (proofs only; no model content). *)
From Verif Require Export PyBase.
From Coq Require Import ZifyBool ZifyN ZifyNat.
Ltac Zify.zify_post_hook ::= Z.div_mod_to_equations.

Lemma str_eqb_eq a b : str_eqb a b = true <-> a = b.
Proof.
  revert b; induction a as [|x a IH]; intros [|y b]; cbn; split; intro H; try congruence; auto.
  - apply andb_prop in H as [H1 H2]. apply N.eqb_eq in H1. apply IH in H2. congruence.
  - injection H as -> ->. rewrite N.eqb_refl. cbn. now apply IH.
Qed.

Lemma str_eqb_refl a : str_eqb a a = true.
Proof. now apply str_eqb_eq. Qed.

Lemma str_eqb_neq a b : str_eqb a b = false <-> a <> b.
Proof.
  split.
  - intros H E. subst. rewrite str_eqb_refl in H. discriminate.
  - intros H. destruct (str_eqb a b) eqn:E; auto. apply str_eqb_eq in E. contradiction.
Qed.

Lemma str_eqb_sym a b : str_eqb a b = str_eqb b a.
Proof.
  destruct (str_eqb a b) eqn:E.
  - apply str_eqb_eq in E. subst. now rewrite str_eqb_refl.
  - symmetry. apply str_eqb_neq. apply str_eqb_neq in E. congruence.
Qed.

Lemma str_eqb_spec a b : Bool.reflect (a = b) (str_eqb a b).
Proof.
  destruct (str_eqb a b) eqn:E; constructor.
  - now apply str_eqb_eq.
  - now apply str_eqb_neq.
Qed.

Definition str_dec (a b : str) : {a = b} + {a <> b}.
Proof. decide equality. apply N.eq_dec. Defined.

Lemma smem_In k l : smem k l = true <-> In k l.
Proof.
  unfold smem. rewrite existsb_exists. split.
  - intros (x & Hx & E). apply str_eqb_eq in E. now subst.
  - intros H. exists k. split; auto. apply str_eqb_refl.
Qed.

Lemma smem_false k l : smem k l = false <-> ~ In k l.
Proof.
  rewrite <- smem_In. destruct (smem k l); split; intro H; try congruence.
Qed.

(** Association lists *)
Lemma aget_In {A} k (l : list (str * A)) a : aget k l = Some a -> In (k, a) l.
Proof.
  induction l as [|[k' a'] l IH]; cbn; [discriminate|].
  destruct (str_eqb_spec k k') as [->|N].
  - intros [= ->]. auto.
  - auto.
Qed.

Lemma aget_None {A} k (l : list (str * A)) : aget k l = None <-> ~ In k (map fst l).
Proof.
  induction l as [|[k' a'] l IH]; cbn; [tauto|].
  destruct (str_eqb_spec k k') as [->|N].
  - split; [discriminate|]. intros H. exfalso. auto.
  - rewrite IH. split; intros H; [intros [E|E]; [congruence|auto]|auto].
Qed.

Lemma aget_Some_in {A} k (l : list (str * A)) : (exists a, aget k l = Some a) <-> In k (map fst l).
Proof.
  destruct (aget k l) as [a|] eqn:E.
  - split; [|eauto]. intros _. apply aget_In in E. apply (in_map fst) in E. exact E.
  - apply aget_None in E. split; [intros [a H]; discriminate|contradiction].
Qed.

Lemma aget_NoDup_In {A} k a (l : list (str * A)) :
  NoDup (map fst l) -> In (k, a) l -> aget k l = Some a.
Proof.
  induction l as [|[k' a'] l IH]; cbn; [easy|].
  intros ND [E|E]; inversion ND as [|? ? N1 N2]; subst.
  - injection E as -> ->. now rewrite str_eqb_refl.
  - destruct (str_eqb_spec k k') as [->|N]; [|auto].
    exfalso. apply N1. apply (in_map fst) in E. exact E.
Qed.

Lemma aset_get_same {A} k (a : A) l : aget k (aset k a l) = Some a.
Proof.
  induction l as [|[k' a'] l IH]; cbn; [now rewrite str_eqb_refl|].
  destruct (str_eqb k k') eqn:E; cbn; rewrite E; auto.
Qed.

Lemma aset_get_other {A} k k' (a : A) l : k <> k' -> aget k (aset k' a l) = aget k l.
Proof.
  intro N. induction l as [|[k2 a2] l IH]; cbn.
  - destruct (str_eqb_spec k k'); [contradiction|reflexivity].
  - destruct (str_eqb_spec k' k2) as [->|N2]; cbn.
    + destruct (str_eqb_spec k k2); [contradiction|reflexivity].
    + destruct (str_eqb k k2); auto.
Qed.

Lemma aset_notin {A} k (a : A) l : ~ In k (map fst l) -> aset k a l = l ++ [(k, a)].
Proof.
  induction l as [|[k' a'] l IH]; cbn; [reflexivity|].
  intros H. destruct (str_eqb_spec k k') as [->|N]; [exfalso; auto|].
  rewrite IH; auto.
Qed.

Lemma aset_in_keys {A} k (a : A) l : In k (map fst l) -> map fst (aset k a l) = map fst l.
Proof.
  induction l as [|[k' a'] l IH]; cbn; [easy|].
  destruct (str_eqb_spec k k') as [->|N]; cbn; [reflexivity|].
  intros [E|E]; [congruence|]. now rewrite IH.
Qed.

Lemma aset_keys {A} k (a : A) l x :
  In x (map fst (aset k a l)) <-> x = k \/ In x (map fst l).
Proof.
  destruct (in_dec str_dec k (map fst l)) as [I|I].
  - rewrite aset_in_keys by auto. split; auto. intros [->|H]; auto.
  - rewrite aset_notin by auto. rewrite map_app, in_app_iff. cbn. intuition.
Qed.

Lemma adel_get_same {A} k (l : list (str * A)) : aget k (adel k l) = None.
Proof.
  induction l as [|[k' a'] l IH]; cbn; [reflexivity|].
  destruct (str_eqb k k') eqn:E; cbn; [auto|]. now rewrite E.
Qed.

Lemma adel_get_other {A} k k' (l : list (str * A)) : k <> k' -> aget k (adel k' l) = aget k l.
Proof.
  intro N. induction l as [|[k2 a2] l IH]; cbn; [reflexivity|].
  destruct (str_eqb_spec k' k2) as [->|N2]; cbn.
  - destruct (str_eqb_spec k k2); [contradiction|auto].
  - destruct (str_eqb k k2); auto.
Qed.

(** strip *)
Lemma lstrip_spec p s :
  exists pre, s = pre ++ lstrip p s /\ forallb p pre = true
              /\ (forall c r, lstrip p s = c :: r -> p c = false).
Proof.
  induction s as [|c s IH]; cbn.
  - exists []. repeat split; auto. discriminate.
  - destruct (p c) eqn:E.
    + destruct IH as (pre & H1 & H2 & H3). exists (c :: pre). cbn. rewrite E. cbn.
      repeat split; auto. congruence.
    + exists []. repeat split; auto. intros c' r [= <- <-]. exact E.
Qed.

Lemma rstrip_spec p s :
  exists suf, s = rstrip p s ++ suf /\ forallb p suf = true
              /\ (forall c r, rstrip p s = r ++ [c] -> p c = false).
Proof.
  induction s as [|c s IH]; cbn.
  - exists []. repeat split; auto. intros c r H. destruct r; discriminate.
  - destruct IH as (suf & H1 & H2 & H3).
    destruct (rstrip p s) as [|d r'] eqn:E.
    + cbn in H1. subst suf. destruct (p c) eqn:Ec.
      * exists (c :: s). split; [reflexivity|]. split; [cbn; now rewrite Ec, H2|].
        intros c' r H. destruct r; discriminate.
      * exists s. split; [reflexivity|]. split; [exact H2|]. intros c' r H.
        destruct r as [|x r]; cbn in H; [|destruct r; discriminate].
        injection H as <-. exact Ec.
    + exists suf. split; [cbn in *; congruence|split; [exact H2|]].
      intros c' r H. destruct r as [|x r]; cbn in H; [discriminate|].
      injection H as <- H. eapply H3; eauto.
Qed.

Lemma lstrip_id p s : (forall c r, s = c :: r -> p c = false) -> lstrip p s = s.
Proof. destruct s as [|c s]; cbn; auto. intros H. now rewrite (H c s eq_refl). Qed.

Lemma rstrip_id p s : (forall c r, s = r ++ [c] -> p c = false) -> rstrip p s = s.
Proof.
  induction s as [|c s IH]; cbn; auto. intros H.
  rewrite IH.
  - destruct s as [|d s]; auto. rewrite (H c []); auto.
  - intros c' r E. apply (H c' (c :: r)). cbn. now rewrite E.
Qed.

Lemma rstrip_head p s c r : rstrip p s = c :: r -> exists r', s = c :: r'.
Proof.
  destruct s as [|d s]; cbn; [discriminate|].
  destruct (rstrip p s); [destruct (p d); [discriminate|]|]; intros [= -> _]; eauto.
Qed.

Lemma strip_idem p s : strip p (strip p s) = strip p s.
Proof.
  unfold strip.
  destruct (lstrip_spec p s) as (pre & _ & _ & H3).
  rewrite (lstrip_id p (rstrip p (lstrip p s))).
  - apply rstrip_id. destruct (rstrip_spec p (lstrip p s)) as (suf & _ & _ & H). exact H.
  - intros c r E. destruct (rstrip_head _ _ _ _ E) as [r' E']. eauto.
Qed.

(** split and join *)
Lemma split_on_nonempty sep s : split_on sep s <> [].
Proof.
  destruct s as [|c s]; cbn; [discriminate|].
  destruct (N.eqb c sep); [discriminate|]. destruct (split_on sep s); discriminate.
Qed.

Lemma join_cons sep p rest : rest <> [] -> join sep (p :: rest) = p ++ sep ++ join sep rest.
Proof. destruct rest; [contradiction|reflexivity]. Qed.

Lemma join_split sep s : join [sep] (split_on sep s) = s.
Proof.
  induction s as [|c s IH]; cbn [split_on]; [reflexivity|].
  destruct (N.eqb_spec c sep) as [->|N].
  - rewrite join_cons by apply split_on_nonempty. cbn. now rewrite IH.
  - destruct (split_on sep s) as [|h t] eqn:E; [exfalso; revert E; apply split_on_nonempty|].
    destruct t as [|h' t].
    + cbn in *. now rewrite IH.
    + rewrite join_cons in IH by discriminate. rewrite join_cons by discriminate.
      cbn [app] in *. now rewrite IH.
Qed.

Lemma split_on_none sep s : ~ In sep s -> split_on sep s = [s].
Proof.
  induction s as [|c s IH]; cbn; [reflexivity|].
  intros H. destruct (N.eqb_spec c sep) as [->|N]; [exfalso; auto|].
  rewrite IH; auto.
Qed.

Lemma split_on_app sep a b :
  ~ In sep a -> split_on sep (a ++ sep :: b) = a :: split_on sep b.
Proof.
  induction a as [|c a IH]; cbn; intros H.
  - now rewrite N.eqb_refl.
  - destruct (N.eqb_spec c sep) as [->|N]; [exfalso; auto|].
    rewrite IH by auto. reflexivity.
Qed.

Lemma split_join sep parts :
  parts <> [] -> Forall (fun p => ~ In sep p) parts -> split_on sep (join [sep] parts) = parts.
Proof.
  induction parts as [|p rest IH]; [contradiction|]. intros _ HF.
  inversion HF as [|? ? H1 H2]; subst.
  destruct rest as [|q rest].
  - cbn. now apply split_on_none.
  - rewrite join_cons by discriminate. cbn [app]. rewrite split_on_app by auto.
    f_equal. apply IH; [discriminate|auto].
Qed.

Lemma split_on_pieces sep s : Forall (fun p => ~ In sep p) (split_on sep s).
Proof.
  induction s as [|c s IH]; cbn [split_on].
  - constructor; [easy|constructor].
  - destruct (N.eqb_spec c sep) as [->|N].
    + constructor; [easy|exact IH].
    + destruct (split_on sep s) as [|h t]; [constructor; [|constructor]; cbn; intuition|].
      inversion IH; subst. constructor; auto. cbn. intuition.
Qed.

Lemma split_on_length sep s : length (split_on sep s) = S (count_char sep s).
Proof.
  induction s as [|c s IH]; cbn; [reflexivity|].
  destruct (N.eqb c sep) eqn:E; cbn [length].
  - now rewrite IH.
  - destruct (split_on sep s); [discriminate|]. cbn in *. exact IH.
Qed.
