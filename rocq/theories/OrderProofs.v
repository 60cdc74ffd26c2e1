(** * The order of the entries of dicts (C32). *)
(* @imports Spec Demo OrderSpec *)
From Verif Require Import PyBaseFacts Induct ProcessFacts Spec Demo ScalarProofs StructFacts SeqProofs MapProofs StructProofs UndefProofs ConfProofs OrderSpec.

Lemma alike_refl {A} (r : res A) : same_outcome r r.
Proof. left. reflexivity. Qed.

(** Loops give the same exception, or results with the same verdict, and the same results if it is good. *)
Definition llike {A} (R : A -> A -> Prop) (c c' : res (A * bool)) : Prop :=
  (exists x, c = Raise x /\ c' = Raise x)
  \/ exists x x' b, c = Ok (x, b) /\ c' = Ok (x', b) /\ R x x' /\ (b = true -> x = x').

Lemma serr_alike {A} anc v v' : same_report v v' -> @same_outcome A (serr anc v) (serr anc v').
Proof.
  intros H. right. eexists _, _. split; [reflexivity|]. split; [reflexivity|].
  split; [repeat split; discriminate|]. apply sr_error; [repeat split; discriminate|]. cbn. intros s s' [= <-] [= <-]. exact H.
Qed.

Section Order.
Variable E : env.

Lemma wrap_alike f r r' : same_outcome r r' -> same_outcome (wrap_undef E f r) (wrap_undef E f r').
Proof.
  intros [-> |[e [e' [-> [-> H]]]]]; [apply alike_refl|]. right. exists e, e'. auto.
Qed.

Lemma collect_alike r r' : same_outcome r r' -> llike same_report (collect r) (collect r').
Proof.
  intros [-> |[e [e' [-> [-> H]]]]].
  - destruct r' as [v|[e|x]]; cbn.
    + right. exists v, v, true. repeat split. apply sr_same.
    + right. exists (VErr e), (VErr e), false. repeat split. apply sr_same.
    + left. eexists. split; reflexivity.
  - right. exists (VErr e), (VErr e'), false. split; [reflexivity|]. split; [reflexivity|]. split; [apply H|discriminate].
Qed.

Definition relates (c : child) (x y : val) : Prop := forall ph ser anc, same_outcome (snd c ph ser anc x) (snd c ph ser anc y).

Lemma seq_order c ph ser anc l l' : Forall2 (relates c) l l' ->
  forall i, llike (Forall2 same_report) (seq_loop E c ph ser anc i l) (seq_loop E c ph ser anc i l').
Proof.
  intros H. induction H as [|x y l l' Hx _ IH]; intros i; cbn [seq_loop].
  - right. exists [], [], true. auto.
  - destruct (collect_alike _ _ (wrap_alike (fst c) _ _ (Hx ph ser (anc ++ [idx_seg i])))) as [[z [-> ->]]|[a [a' [b [-> [-> [Hla Ha]]]]]]];
      cbn [bind fst snd]; [left; eexists; split; reflexivity|].
    destruct (IH (S i)) as [[z [-> ->]]|[r [r' [b' [-> [-> [Hlr Hr]]]]]]];
      cbn [bind fst snd]; [left; eexists; split; reflexivity|].
    right. exists (a :: r), (a' :: r'), (b && b'). split; [reflexivity|]. split; [reflexivity|]. split; [constructor; assumption|].
    intros Hb. apply andb_prop in Hb. destruct Hb as [-> ->]. rewrite Ha, Hr by reflexivity. reflexivity.
Qed.

Lemma tuple_order cs ph ser anc (mk : list val -> val) l l' : mk = VList \/ mk = VTuple -> length l = length l' ->
  forall i,
  (forall j c x y, nth_error cs j = Some c -> nth_error l (i + j) = Some x -> nth_error l' (i + j) = Some y -> relates c x y) ->
  llike (Forall2 same_report) (tuple_loop E cs ph ser anc i (mk l)) (tuple_loop E cs ph ser anc i (mk l')).
Proof.
  intros Hmk Hlen. induction cs as [|c cs IH]; intros i H; cbn [tuple_loop].
  - right. exists [], [], true. auto.
  - assert (Hi : forall m : list val, py_index E (mk m) i = match nth_error m i with Some x => Ok x | None => py IndexError end)
      by (intros m; destruct Hmk as [-> | ->]; reflexivity).
    rewrite !Hi.
    destruct (nth_error l i) as [x|] eqn:Hx, (nth_error l' i) as [y|] eqn:Hy; cbn [bind].
    2: exfalso; apply nth_error_None in Hy; assert (i < length l)%nat by (apply nth_error_Some; congruence); lia.
    2: exfalso; apply nth_error_None in Hx; assert (i < length l')%nat by (apply nth_error_Some; congruence); lia.
    2: left; eexists; split; reflexivity.
    assert (Hr := H O c x y eq_refl). rewrite Nat.add_0_r in Hr. specialize (Hr Hx Hy).
    destruct (collect_alike _ _ (wrap_alike (fst c) _ _ (Hr ph ser (anc ++ [idx_seg i])))) as [[z [-> ->]]|[a [a' [b [-> [-> [Hla Ha]]]]]]];
      cbn [bind fst snd]; [left; eexists; split; reflexivity|].
    destruct (IH (S i)) as [[z [-> ->]]|[r [r' [b' [-> [-> [Hlr Hrr]]]]]]].
    { intros j c' x' y' Hj. specialize (H (S j) c' x' y' Hj). rewrite Nat.add_succ_r in H. exact H. }
    { cbn [bind fst snd]. left; eexists; split; reflexivity. }
    cbn [bind fst snd].
    right. exists (a :: r), (a' :: r'), (b && b'). split; [reflexivity|]. split; [reflexivity|]. split; [constructor; assumption|].
    intros Hb. apply andb_prop in Hb. destruct Hb as [-> ->]. rewrite Ha, Hrr by reflexivity. reflexivity.
Qed.

Definition entries_report (l l' : list (val * val)) : Prop :=
  Forall2 (fun a b => fst a = fst b /\ same_report (snd a) (snd b)) l l'.

Lemma entries_refl l : entries_report l l.
Proof. induction l; constructor; [split; [reflexivity|apply sr_same]|assumption]. Qed.

Lemma entries_keys l l' : entries_report l l' -> map fst l = map fst l'.
Proof. intros H. induction H as [|a b l l' [H _] _ IH]; cbn; congruence. Qed.

Lemma dset_report L k x x' l l' : same_report x x' -> entries_report l l' -> entries_report (dset L k x l) (dset L k x' l').
Proof.
  intros Hx H. induction H as [|[a u] [b w] l l' [Hk Hu] H IH]; cbn.
  - constructor; [split; [reflexivity|exact Hx]|constructor].
  - cbn [fst snd] in Hk, Hu. subst b. destruct (veq L a k); constructor; try assumption; split; auto.
Qed.

Lemma sset_report k x x' l l' : same_report x x' -> entries_report l l' -> entries_report (sset k x l) (sset k x' l').
Proof.
  intros Hx H. induction H as [|[a u] [b w] l l' [Hk Hu] H IH]; cbn.
  - constructor; [split; [reflexivity|exact Hx]|constructor].
  - cbn [fst snd] in Hk, Hu. subst b. destruct a; try (constructor; [split; auto|assumption]).
    destruct (str_eqb k s); constructor; try assumption; split; auto.
Qed.

Lemma dmem_keys L k l l' : map fst l = map fst l' -> dmem L k l = dmem L k l'.
Proof.
  unfold dmem. revert l'. induction l as [|[a u] l IH]; intros [|[b w] l'] H; cbn in H |- *; try discriminate; [reflexivity|].
  injection H as -> H. destruct (veq L b k); [reflexivity|]. apply IH, H.
Qed.

Lemma map_order cv ck ph ser anc l l' :
  Forall2 (fun a b => fst a = fst b /\ relates cv (snd a) (snd b)) l l' ->
  forall acc acc' valid, entries_report acc acc' -> (valid = true -> acc = acc') ->
  llike entries_report (map_loop E cv ck ph ser anc l acc valid) (map_loop E cv ck ph ser anc l' acc' valid).
Proof.
  intros H. induction H as [|[k x] [k' y] l l' [Hk Hx] _ IH]; intros acc acc' valid Hacc Hv; cbn [map_loop].
  - right. exists acc, acc', valid. auto.
  - cbn [fst snd] in Hk, Hx. subst k'.
    match goal with |- llike _ (bind ?m _) _ => destruct m as [name'|z] end; cbn [bind]; [|left; eexists; split; reflexivity].
    destruct (key_seg E name') as [seg|z]; cbn [bind]; [|left; eexists; split; reflexivity].
    destruct (collect_alike _ _ (wrap_alike (fst cv) _ _ (Hx ph ser (anc ++ [seg])))) as [[z [-> ->]]|[a [a' [b [-> [-> [Hla Ha]]]]]]];
      cbn [bind fst snd]; [left; eexists; split; reflexivity|].
    destruct (hashable name'); [|left; eexists; split; reflexivity].
    apply IH; [apply dset_report; assumption|]. intros Hb. apply andb_prop in Hb. destruct Hb as [-> ->].
    rewrite Ha, Hv by reflexivity. reflexivity.
Qed.

Lemma required_order anc req : forall acc acc' valid, entries_report acc acc' -> (valid = true -> acc = acc') ->
  llike entries_report (map_required E anc req acc valid) (map_required E anc req acc' valid).
Proof.
  induction req as [|k req IH]; intros acc acc' valid Hacc Hv; cbn [map_required].
  - right. exists acc, acc', valid. auto.
  - destruct (hashable k); [|left; eexists; split; reflexivity].
    rewrite (dmem_keys _ k acc acc' (entries_keys _ _ Hacc)). destruct (dmem _ k acc'); [apply IH; assumption|].
    apply IH; [apply dset_report; [apply sr_same|exact Hacc]|discriminate].
Qed.

Lemma union_order cs ph ser anc v w : (forall c, In c cs -> relates c v w) ->
  same_outcome (union_loop E cs ph ser anc v) (union_loop E cs ph ser anc w).
Proof.
  induction cs as [|c cs IH]; intros H; cbn [union_loop]; [apply alike_refl|].
  assert (Hi : same_outcome (union_loop E cs ph ser anc v) (union_loop E cs ph ser anc w))
    by (apply IH; intros c' Hc; apply H; right; exact Hc).
  destruct (wrap_alike (fst c) _ _ (H c (or_introl eq_refl) ph ser anc)) as [-> |[e [e' [-> [-> He]]]]].
  - destruct (wrap_undef E (fst c) _) as [|[e|]]; try apply alike_refl. destruct (er_cls e); try apply alike_refl. exact Hi.
  - assert (Hr : same_outcome (@Raise val (XErr e)) (Raise (XErr e'))) by (right; exists e, e'; auto).
    rewrite (proj1 (proj1 He)). destruct (er_cls e'); assumption.
Qed.

Lemma sget_In k l x : sget k l = Some x -> In (VStr k, x) l.
Proof.
  induction l as [|[a u] l IH]; cbn; [discriminate|]. destruct a; try (intros H; right; apply IH, H; fail).
  destruct (str_eqb k s) eqn:Hs; [|intros H; right; apply IH, H].
  intros [= ->]. apply str_eqb_eq in Hs. subst. left. reflexivity.
Qed.

Lemma kmem_perm k n n' : Permutation n n' -> kmem k n = kmem k n'.
Proof.
  intros H. apply Bool.eq_true_iff_eq. unfold kmem. rewrite !existsb_exists.
  split; intros [x [Hx Hk]]; exists x; (split; [|exact Hk]); [|apply Permutation_sym in H]; eapply Permutation_in; eauto.
Qed.

Lemma kdel_perm k n n' : Permutation n n' -> Permutation (kdel k n) (kdel k n').
Proof.
  intros H. unfold kdel. induction H; cbn.
  - constructor.
  - match goal with |- context [if ?b then _ else _] => destruct b end; [constructor|]; assumption.
  - repeat match goal with |- context [if ?b then _ else _] => destruct b end; try apply Permutation_refl. apply perm_swap.
  - eapply perm_trans; eauto.
Qed.

Definition entry_like (d : list (str * child)) (name : str) (a b : option val) : Prop :=
  match a, b with
  | Some x, Some y => x = y \/ (forall c, In (name, c) d -> relates c x y) /\ (is_none x = is_none y)
  | None, None => True
  | _, _ => False
  end.

Lemma kdel_In k n x : In x (kdel k n) -> In x n /\ x <> VStr k.
Proof.
  unfold kdel. intros H. apply filter_In in H. destruct H as [H Hk]. split; [exact H|]. intros ->.
  rewrite str_eqb_refl in Hk. discriminate.
Qed.

Lemma distinct_kdel L k n : distinct L n -> distinct L (kdel k n).
Proof.
  unfold kdel. induction n as [|x n IH]; cbn; [auto|]. intros [H1 H2].
  match goal with |- context [if ?b then _ else _] => destruct b end; [|apply IH, H2].
  cbn. split; [|apply IH, H2]. intros y Hy. apply filter_In in Hy. apply H1, Hy.
Qed.

Lemma sset_keys k x l y : In y (map fst (sset k x l)) -> y = VStr k \/ In y (map fst l).
Proof.
  induction l as [|[a u] l IH]; cbn.
  - intros [<-|[]]. left. reflexivity.
  - destruct a; try (intros [<-|H]; [right; left; reflexivity|destruct (IH H); auto]).
    destruct (str_eqb k s); cbn; [intros H; right; exact H|]. intros [<-|H]; [right; left; reflexivity|destruct (IH H); auto].
Qed.

(** The keys not yet visited are apart from each other and from those visited. *)
Definition apart (n n' : list val) (acc : list (val * val)) : Prop :=
  distinct (e_local E) n /\ distinct (e_local E) n'
  /\ forall k, In k (map fst acc) -> exists s, k = VStr s /\ ~ In (VStr s) n /\ ~ In (VStr s) n'.

Lemma apart_kdel k n n' acc : apart n n' acc -> apart (kdel k n) (kdel k n') acc.
Proof.
  intros [H1 [H2 H3]]. split; [apply distinct_kdel, H1|]. split; [apply distinct_kdel, H2|].
  intros x Hx. destruct (H3 x Hx) as [s [-> [Hs Hs']]]. exists s.
  split; [reflexivity|]. split; intros H; apply kdel_In in H; tauto.
Qed.

Lemma apart_set k x n n' acc : apart n n' acc -> apart (kdel k n) (kdel k n') (sset k x acc).
Proof.
  intros H. destruct (apart_kdel k _ _ _ H) as [H1 [H2 H3]]. split; [exact H1|]. split; [exact H2|].
  intros y Hy. apply sset_keys in Hy. destruct Hy as [->|Hy]; [|apply H3, Hy].
  exists k. split; [reflexivity|]. split; intros Hk; apply kdel_In in Hk; tauto.
Qed.

Lemma dget_new L k (l : list (val * val)) : (forall x, In x (map fst l) -> veq L x k = false) -> dget L k l = None.
Proof.
  induction l as [|[a u] l IH]; cbn; [reflexivity|]. intros H. rewrite (H a) by (left; reflexivity).
  apply IH. intros x Hx. apply H. right. exact Hx.
Qed.

Lemma unknown_app anc n : forall a,
  distinct (e_local E) n -> (forall x y, In x (map fst a) -> In y n -> veq (e_local E) x y = false) ->
  add_unknown E anc n a = a ++ map (fun k => (k, VErr (own_err CValidation anc $"unknown"))) n.
Proof.
  unfold add_unknown. induction n as [|k n IH]; intros a Hd H; cbn [fold_left map]; [rewrite app_nil_r; reflexivity|].
  destruct Hd as [Hk Hd]. rewrite dset_new.
  - rewrite IH; [rewrite <- app_assoc; reflexivity|exact Hd|]. intros x y Hx Hy. rewrite map_app in Hx. apply in_app_or in Hx.
    destruct Hx as [Hx|[<-|[]]]; [apply H; [exact Hx|right; exact Hy]|apply Hk, Hy].
  - apply dget_new. intros x Hx. apply H; [exact Hx|left; reflexivity].
Qed.

Lemma unknown_report o anc n n' a a' :
  Permutation n n' -> entries_report a a' -> apart n n' a ->
  same_report (VDict o (add_unknown E anc n a)) (VDict o (add_unknown E anc n' a')).
Proof.
  intros Hn Ha [H1 [H2 H3]].
  assert (Hk : forall s k m, ~ In (VStr s) m -> In k m -> veq (e_local E) (VStr s) k = false).
  { intros s k m Hs Hi. destruct k; try reflexivity. cbn. apply str_eqb_neq. intros ->. exact (Hs Hi). }
  rewrite !unknown_app; [|exact H2| |exact H1|].
  - eapply sr_dict; [apply Permutation_app_head, Permutation_map, Hn|]. apply Forall2_app; [exact Ha|apply entries_refl].
  - intros x y Hx Hy. rewrite <- (entries_keys _ _ Ha) in Hx. destruct (H3 x Hx) as [s [-> [_ Hs]]]. eapply Hk; eassumption.
  - intros x y Hx Hy. destruct (H3 x Hx) as [s [-> [Hs _]]]. eapply Hk; eassumption.
Qed.

Lemma plain_report o a a' : entries_report a a' -> same_report (VDict o a) (VDict o a').
Proof. intros H. eapply sr_dict; [apply Permutation_refl|exact H]. Qed.

Lemma struct_order d items items' partial ph ser anc order :
  (forall name, entry_like d name (sget name items) (sget name items')) ->
  forall names names' acc acc' valid, Permutation names names' -> (valid = true -> acc = acc') ->
  entries_report acc acc' -> apart names names' acc ->
  (exists x, struct_loop E d items partial ph ser anc order names acc valid = Raise x
             /\ struct_loop E d items' partial ph ser anc order names' acc' valid = Raise x)
  \/ exists n n' a a' b, struct_loop E d items partial ph ser anc order names acc valid = Ok (n, a, b)
             /\ struct_loop E d items' partial ph ser anc order names' acc' valid = Ok (n', a', b)
             /\ Permutation n n' /\ (b = true -> a = a') /\ entries_report a a' /\ apart n n' a.
Proof.
  intros Hitems. induction order as [|name order IH]; intros names names' acc acc' valid Hn Hv Hacc Hap; cbn [struct_loop].
  - right. exists names, names', acc, acc', valid. auto 10.
  - destruct (aget name d) as [c|] eqn:Hc; [|left; eexists; split; reflexivity].
    cbv zeta. rewrite (kmem_perm name _ _ Hn).
    assert (Hn' := kdel_perm name _ _ Hn).
    assert (Hap' := apart_kdel name _ _ _ Hap).
    assert (Hin : In (name, c) d).
    { clear -Hc. induction d as [|[a b] d IHd]; cbn in Hc; [discriminate|]. destruct (str_eqb name a) eqn:Hs.
      - apply str_eqb_eq in Hs. injection Hc as ->. subst. left. reflexivity.
      - right. apply IHd, Hc. }
    specialize (Hitems name) as Hi.
    assert (Hd : (exists z, decide E ph partial (fst c) (kmem name names') (sget name items) = Raise z
                     /\ decide E ph partial (fst c) (kmem name names') (sget name items') = Raise z)
                 \/ exists u u', decide E ph partial (fst c) (kmem name names') (sget name items) = Ok u
                     /\ decide E ph partial (fst c) (kmem name names') (sget name items') = Ok u'
                     /\ (u = u' \/ exists x y, u = DProcess x /\ u' = DProcess y /\ relates c x y /\ is_none x = is_none y)).
    { unfold decide. destruct (kmem name names').
      - unfold entry_like in Hi. destruct (sget name items) as [x|], (sget name items') as [y|]; try contradiction.
        + right. exists (DProcess x), (DProcess y). split; [reflexivity|]. split; [reflexivity|].
          destruct Hi as [-> |[Hr Hxy]]; [left; reflexivity|]. right. exists x, y. auto.
        + match goal with |- context [?r = Ok _ /\ ?r = Ok _ /\ _] => destruct r as [u|z] end;
            [right; exists u, u; auto|left; exists z; auto].
      - match goal with |- context [?r = Ok _ /\ ?r = Ok _ /\ _] => destruct r as [u|z] end;
          [right; exists u, u; auto|left; exists z; auto]. }
    destruct Hd as [[z [-> ->]]|[u [u' [-> [-> Hu]]]]]; cbn [bind]; [left; eexists; split; reflexivity|].
    assert (Hgo : forall x y, relates c x y -> is_none x = is_none y ->
       let go := fun its nm ac w =>
          match fparams E (fst c) with
          | None => py UndefinedFieldError
          | Some q =>
              if p_ignore_null q && is_none w then
                struct_loop E d its partial ph ser anc order (kdel name nm) ac valid
              else
                do x <- collect (wrap_undef E (fst c) (snd c ph ser (anc ++ [$"." ++ name]) w));
                struct_loop E d its partial ph ser anc order (kdel name nm)
                  (sset name (fst x) ac) (valid && snd x)
          end in
       (exists z, go items names acc x = Raise z /\ go items' names' acc' y = Raise z)
       \/ exists n n' a a' b, go items names acc x = Ok (n, a, b)
             /\ go items' names' acc' y = Ok (n', a', b) /\ Permutation n n' /\ (b = true -> a = a') /\ entries_report a a' /\ apart n n' a).
    { intros x y Hr Hxy. cbv beta zeta. rewrite Hxy. destruct (fparams E (fst c)) as [q|]; [|left; eexists; split; reflexivity].
      destruct (p_ignore_null q && is_none y); [apply IH; assumption|].
      destruct (collect_alike _ _ (wrap_alike (fst c) _ _ (Hr ph ser (anc ++ [$"." ++ name])))) as [[z [-> ->]]|[a [a' [b [-> [-> [Hla Ha]]]]]]];
        cbn [bind fst snd]; [left; eexists; split; reflexivity|].
      apply IH; [exact Hn'| |apply sset_report; assumption|apply apart_set; exact Hap].
      intros Hb. apply andb_prop in Hb. destruct Hb as [-> ->].
      rewrite Ha, Hv by reflexivity. reflexivity. }
    destruct Hu as [-> |[x [y [-> [-> [Hr Hxy]]]]]]; [|exact (Hgo x y Hr Hxy)].
    destruct u' as [| |x].
    + apply IH; assumption.
    + apply IH; [exact Hn'|discriminate|apply sset_report; [apply sr_same|exact Hacc]|apply apart_set; exact Hap].
    + apply (Hgo x x); [|reflexivity]. intros ? ? ?. apply alike_refl.
Qed.

Lemma run_order d strict order ident partial ph ser anc items items' :
  (forall name, entry_like d name (sget name items) (sget name items')) ->
  Permutation (map fst items) (map fst items') ->
  distinct (e_local E) (map fst items) -> distinct (e_local E) (map fst items') ->
  same_outcome (struct_run E d strict order ident partial ph ser anc items)
        (struct_run E d strict order ident partial ph ser anc items').
Proof.
  intros Hi Hp Hd Hd'. unfold struct_run.
  match goal with |- same_outcome (bind ?m _) _ => destruct m as [o|z] end; cbn [bind]; [|apply alike_refl].
  destruct (struct_order d items items' partial ph ser anc o Hi (map fst items) (map fst items') [] [] true Hp (fun _ => eq_refl) (entries_refl []))
    as [[z [-> ->]]|[n [n' [a [a' [b [-> [-> [Hn [Hb [Ha Hap]]]]]]]]]]]; cbn [bind]; [|apply alike_refl|].
  { split; [exact Hd|]. split; [exact Hd'|]. intros k []. }
  assert (Hrep := fun o => unknown_report o anc n n' a a' Hn Ha Hap). assert (Hrep' := fun o => plain_report o a a' Ha).
  assert (He : match n with [] => true | _ => false end = match n' with [] => true | _ => false end).
  { destruct n, n'; try reflexivity; exfalso.
    - eapply Permutation_nil_cons, Hn.
    - eapply Permutation_nil_cons, Permutation_sym, Hn. }
  rewrite He. destruct b; cbn [andb]; [|apply serr_alike; destruct strict; auto].
  specialize (Hb eq_refl). subst a'. destruct strict; cbn [negb orb]; [|apply alike_refl].
  destruct n'; [|apply serr_alike, Hrep]. destruct n; [apply alike_refl|discriminate].
Qed.

End Order.

Lemma shuffled_none E f v w : shuffled E f v w -> is_none v = is_none w.
Proof.
  intros H. induction H; try reflexivity; try assumption.
  - destruct H0 as [-> | ->]; reflexivity.
Qed.

Lemma plain_alike E desc recon n f partial ph ser anc v w :
  plain_class f v -> same_container v w ->
  process_gen E desc recon n f partial ph ser anc v = process_gen E desc recon n f partial ph ser anc w.
Proof.
  destruct f as [|p k]; [intros []|]. intros [Hp [Hc Hk]] Hvw. rewrite !process_Fld. unfold process_body.
  set (path := match anc with [] => _ | _ => _ end). clearbody path.
  destruct Hvw as [[o [o' [l [l' [-> ->]]]]]|[l [l' [-> ->]]]].
  all: destruct k; try (exfalso; exact Hk); cbn [kmap]; unfold process_scalar, preprocess; cbn [kind_ignored];
    rewrite !is_null_some by discriminate; rewrite Hp, Hc; cbn [bind andb is_none negb].
  all: try destruct extended; destruct ph, ser; try reflexivity.
  all: cbn.
  all: try reflexivity.
  exfalso. eapply Hk. reflexivity.
Qed.

Lemma sget_None k l : sget k l = None -> ~ In (VStr k) (map fst l).
Proof.
  induction l as [|[a u] l IH]; cbn; [auto|]. destruct a; try (intros H [?|Hi]; [discriminate|exact (IH H Hi)]).
  destruct (str_eqb k s) eqn:Hs; [discriminate|]. intros H [[= ->]|Hi]; [|exact (IH H Hi)].
  rewrite str_eqb_refl in Hs. discriminate.
Qed.

Lemma entries_like defn l l' (rel : str -> val -> val -> Prop) name :
  Permutation (map fst l) (map fst l') ->
  (forall k x y, In (k, x) l -> In (k, y) l' -> x = y \/ exists s, k = VStr s /\ rel s x y) ->
  (forall x y, rel name x y -> (forall c, In (name, c) defn -> relates c x y) /\ is_none x = is_none y) ->
  entry_like defn name (sget name l) (sget name l').
Proof.
  intros Hp H Hrel. unfold entry_like.
  destruct (sget name l) as [x|] eqn:Hx, (sget name l') as [y|] eqn:Hy; [| | |exact I].
  - apply sget_In in Hx, Hy. destruct (H _ _ _ Hx Hy) as [->|[s [[= <-] Hr]]]; [left; reflexivity|]. right. apply Hrel, Hr.
  - apply sget_In in Hx. apply sget_None in Hy. apply Hy. eapply Permutation_in; [exact Hp|].
    apply in_map_iff. eexists. split; [|exact Hx]. reflexivity.
  - apply sget_In in Hy. apply sget_None in Hx. apply Hx. eapply Permutation_in; [apply Permutation_sym, Hp|].
    apply in_map_iff. eexists. split; [|exact Hy]. reflexivity.
Qed.

Lemma Forall2_imp {A B} (R S : A -> B -> Prop) l l' : (forall a b, R a b -> S a b) -> Forall2 R l l' -> Forall2 S l l'.
Proof. intros H HF. induction HF; constructor; auto. Qed.

(** @prop C32 The order in which a dict lists its entries does not matter to a structure: values that
    differ only in it, at any depth, are processed to the same value, or both refused with the same report, at
    any depth, but for the order of the entries of the dicts of errors, or both let the same other exception
    escape; natively or serialized, inbound or outbound, in part or in whole. *)
Lemma order_irrelevant :
  forall E desc recon n f partial ph ser anc v w,
    shuffled E f v w ->
    same_outcome (process_gen E desc recon n f partial ph ser anc v)
                 (process_gen E desc recon n f partial ph ser anc w).
Proof.
  intros E desc recon n. induction n as [n IHn] using lt_wf_ind.
  intros f. induction f as [i|p k IH] using field_ind'; intros partial ph ser anc v w H.
  - inversion H; subst; [apply alike_refl|]. rewrite !process_FUndef.
    match goal with He : e_undef E i = Some _ |- _ => rewrite He end.
    match goal with |- context [match ?g with FUndef _ => _ | Fld _ _ => _ end] => destruct g as [|q k] end; [apply alike_refl|].
    destruct n as [|m]; [apply alike_refl|]. apply IHn; [lia|assumption].
  - assert (Hsub : forall g x y, In g (subfields k) -> shuffled E g x y ->
              relates (g, process_gen E desc recon n g false) x y).
    { intros g x y Hg Hs ph' ser' anc'. cbn [snd]. apply (IH g Hg). exact Hs. }
    rewrite !process_Fld. unfold process_body.
    set (path := match anc with [] => _ | _ => _ end). clearbody path.
    inversion H; subst; [apply alike_refl| | | | |]; cbn [kmap].
    + (* sequence *)
      unfold process_sequence. rewrite !is_null_some by discriminate. cbn [bind].
      unfold pre_raw. match goal with Hp : p_preprocessor p = None |- _ => rewrite Hp end. cbn [bind py_iter].
      assert (Hl : zlen l = zlen l') by (unfold zlen; f_equal; eapply Forall2_length; eassumption).
      rewrite Hl. destruct (below _ _ _); [apply alike_refl|]. destruct (above _ _ _); [apply alike_refl|].
      assert (HF : Forall2 (relates (item, process_gen E desc recon n item false)) l l').
      { eapply Forall2_imp; [|eassumption]. intros a b. apply Hsub. left. reflexivity. }
      destruct (seq_order E _ ph ser path l l' HF 0) as [[z [-> ->]]|[r [r' [b [-> [-> [Hlr Hr]]]]]]]; cbn [bind fst snd]; [apply alike_refl|].
      destruct b; [rewrite (Hr eq_refl); apply alike_refl|]. apply serr_alike. constructor. exact Hlr.
    + (* tuple *)
      match goal with Hl : length l = length l' |- _ => rename Hl into Hll end.
      assert (Hgo : forall mk, mk = VList \/ mk = VTuple ->
        same_outcome (process_tuple E p (map (fun g => (g, process_gen E desc recon n g false)) fs) ph ser path (mk l))
                     (process_tuple E p (map (fun g => (g, process_gen E desc recon n g false)) fs) ph ser path (mk l'))).
      { intros mk Hmk. unfold process_tuple. rewrite !is_null_some by (destruct Hmk as [-> | ->]; discriminate). cbn [bind].
        unfold pre_raw. match goal with Hp : p_preprocessor p = None |- _ => rewrite Hp end. cbn [bind].
        assert (Ho := tuple_order E (map (fun g => (g, process_gen E desc recon n g false)) fs) ph ser path mk l l' Hmk Hll 0).
        destruct Hmk as [-> | ->]; cbn [py_iter]; rewrite Hll;
          (destruct (Nat.eqb _ _); [|apply alike_refl]);
          (destruct Ho as [[z [-> ->]]|[r [r' [b [-> [-> [Hlr Hr]]]]]]];
           [intros j c' x y Hj Hx Hy; rewrite nth_error_map in Hj; destruct (nth_error fs j) as [g|] eqn:Hg; [|discriminate];
            injection Hj as <-; apply Hsub; [eapply nth_error_In, Hg|]; eauto
           |cbn [bind]; apply alike_refl
           |cbn [bind fst snd]; destruct b; [rewrite (Hr eq_refl); apply alike_refl|apply serr_alike; constructor; exact Hlr]]). }
      apply Hgo. assumption.
    + (* map *)
      unfold process_map. rewrite !is_null_some by discriminate. cbn [bind as_dict].
      unfold pre_raw. match goal with Hp : p_preprocessor p = None |- _ => rewrite Hp end. cbn [bind as_dict].
      match goal with |- context [map_loop E ?cv ?ck ph ser path l [] true] =>
        destruct (map_order E cv ck ph ser path l l') with (acc := @nil (val * val)) (acc' := @nil (val * val)) (valid := true)
          as [[z [-> ->]]|[r [r' [b [-> [-> [Hk Hr]]]]]]] end; try reflexivity; try apply entries_refl.
      { eapply Forall2_imp; [|eassumption]. intros a b [Ha Hb]. split; [exact Ha|]. apply Hsub; [|exact Hb].
        destruct key; left; reflexivity. }
      { apply alike_refl. }
      cbn [bind fst snd]. destruct req as [req|].
      * destruct (required_order E path req r r' b Hk Hr) as [[z [-> ->]]|[r2 [r2' [b2 [-> [-> [Hk2 Hr2]]]]]]]; cbn [bind fst snd]; [apply alike_refl|].
        destruct b2; [rewrite (Hr2 eq_refl); apply alike_refl|apply serr_alike, plain_report, Hk2].
      * cbn [bind fst snd]. destruct b; [rewrite (Hr eq_refl); apply alike_refl|apply serr_alike, plain_report, Hk].
    + (* union *)
      match goal with Hs : shuffled E ?g v w |- _ => assert (Hn := shuffled_none _ _ _ _ Hs) end.
      destruct (is_none v) eqn:Hv.
      { destruct v; try discriminate. destruct w; try discriminate. apply alike_refl. }
      unfold process_union. rewrite !is_null_some by (intros ->; discriminate). cbn [bind].
      apply union_order. intros c Hc. apply in_map_iff in Hc. destruct Hc as [h [<- Hh]].
      match goal with Hs : forall h, In h fs -> _ |- _ => destruct (Hs h Hh) as [Hsh|[Hco Hpl]] end.
      * apply Hsub; auto.
      * intros ph' ser' anc'. left. cbn [snd]. apply plain_alike; assumption.
    + (* structure *)
      match goal with Hx : forall k x y, In (k, x) l -> _ |- _ => rename Hx into H9 end.
      match goal with Hx : match d with SPlain _ => True | _ => _ end |- _ => rename Hx into H8 end.
      unfold process_structure. rewrite !is_null_some by discriminate. cbn [bind as_dict].
      unfold pre_raw. match goal with Hp : p_preprocessor p = None |- _ => rewrite Hp end. cbn [bind as_dict].
      assert (Hent : forall defn : list (str * field),
        (forall kf, In kf defn -> In kf (held d) /\ In (snd kf) (subfields (KStructure d strict order))) ->
        forall name,
        entry_like (map (fun kf => (fst kf, (snd kf, process_gen E desc recon n (snd kf) false))) defn) name
                   (sget name l) (sget name l')).
      { intros defn Hdefn name.
        apply (entries_like _ l l' (fun s x y => (exists g, In (s, g) (held d)) /\ forall g, In (s, g) (held d) -> shuffled E g x y)); [assumption| |].
        - intros k x y Hx Hy. destruct (H9 k x y Hx Hy) as [->|[s [-> [_ Hs]]]]; [left; reflexivity|]. right. exists s. auto.
        - intros x y [[g Hg] Hs]. split; [|exact (shuffled_none _ _ _ _ (Hs g Hg))].
          intros c Hc. apply in_map_iff in Hc. destruct Hc as [[s h] [[= -> <-] Hh]]. destruct (Hdefn _ Hh) as [Hheld Hsf].
          apply Hsub; [exact Hsf|]. apply Hs. exact Hheld. }
      destruct d as [defn|on vs]; cbn [sdef_map].
      * apply run_order; [|assumption..]. apply Hent. intros kf Hkf. split; [exact Hkf|]. cbn. apply in_map, Hkf.
      * destruct H8 as [name Hname]. destruct Hname as [q [Hq Hqn]]. cbn [fst]. rewrite Hq, Hqn.
        assert (Hf : sget name l = sget name l').
        { destruct (sget name l) as [x|] eqn:Hx, (sget name l') as [y|] eqn:Hy; [| | |reflexivity].
          - apply sget_In in Hx, Hy. destruct (H9 _ _ _ Hx Hy) as [->|[s [[= <-] [Hno _]]]]; [reflexivity|].
            exfalso. apply Hno. exists q. auto.
          - exfalso. apply sget_In in Hx. apply sget_None in Hy. apply Hy. eapply Permutation_in; [eassumption|].
            apply in_map_iff. eexists. split; [|exact Hx]. reflexivity.
          - exfalso. apply sget_In in Hy. apply sget_None in Hx. apply Hx. eapply Permutation_in; [apply Permutation_sym; eassumption|].
            apply in_map_iff. eexists. split; [|exact Hy]. reflexivity. }
        rewrite Hf. destruct (sget name l') as [ident|]; [|apply alike_refl].
        assert (Hgo : same_outcome
          (do ident' <- snd (on, process_gen E desc recon n on false) ph ser (path ++ [$"." ++ name]) ident;
           if hashable ident' then
             match find (fun vd => veq (e_local E) (fst vd) ident') (map (fun vl => (fst vl, map (fun kf => (fst kf, (snd kf, process_gen E desc recon n (snd kf) false))) (snd vl))) vs) with
             | Some (_, kf :: rest) => struct_run E (kf :: rest) strict order ident' partial ph ser path l
             | _ => verr path $"unrecognized"
             end
           else py TypeError)
          (do ident' <- snd (on, process_gen E desc recon n on false) ph ser (path ++ [$"." ++ name]) ident;
           if hashable ident' then
             match find (fun vd => veq (e_local E) (fst vd) ident') (map (fun vl => (fst vl, map (fun kf => (fst kf, (snd kf, process_gen E desc recon n (snd kf) false))) (snd vl))) vs) with
             | Some (_, kf :: rest) => struct_run E (kf :: rest) strict order ident' partial ph ser path l'
             | _ => verr path $"unrecognized"
             end
           else py TypeError)).
        { destruct (snd (on, process_gen E desc recon n on false) ph ser (path ++ [$"." ++ name]) ident) as [ident'|z]; cbn [bind]; [|apply alike_refl].
          destruct (hashable ident'); [|apply alike_refl].
          destruct (find_variants (fun d => map (fun kf => (fst kf, (snd kf, process_gen E desc recon n (snd kf) false))) d)
                                  (fun d => map (fun kf => (fst kf, (snd kf, process_gen E desc recon n (snd kf) false))) d)
                                  (fun x => veq (e_local E) x ident') vs) as [[u [dv [Hin [-> _]]]]|[-> _]]; [|apply alike_refl].
          assert (He := Hent dv). destruct dv as [|kf dv]; [apply alike_refl|]. cbn [map] in He |- *.
          apply run_order; [|assumption..]. apply He. intros kf' Hkf'.
          assert (In kf' (concat (map snd vs))) by (apply in_concat; exists (kf :: dv); split; [apply in_map_iff; exists (u, kf :: dv); auto|exact Hkf']).
          split; [assumption|]. cbn [subfields sdef_fields]. right. apply in_flat_map. exists (u, kf :: dv).
          split; [exact Hin|]. apply in_map, Hkf'. }
        destruct ident; try exact Hgo. apply alike_refl.
Qed.

(** @example
(* A text or a structure, in a sequence: the entries of the inner and the outer dict in another order.  The
   second pair, with an unknown key, is refused either way, but the reports list the keys in different orders. *)
Example C32_order_example :
  let inner := Fld p0 (KStructure (SPlain [($"x", Fld p0 (KInteger None None)); ($"y", Fld p0 KBoolean)]) true None) in
  let f := Fld p0 (KStructure (SPlain [($"a", Fld p0 (KInteger None None));
             ($"b", Fld p0 (KSequence (Fld p0 (KUnion [Fld p0 (KText None None None true); inner])) None None false))]) true None) in
  let v := VDict false [(VStr $"a", VInt 1); (VStr $"b", VList [VDict false [(VStr $"x", VInt 2); (VStr $"y", VBool true)]])] in
  let w := VDict false [(VStr $"b", VList [VDict false [(VStr $"y", VBool true); (VStr $"x", VInt 2)]]); (VStr $"a", VInt 1)] in
  shuffled env0 f v w /\ run0 f Inbound false v = Ok v /\ run0 f Inbound false w = Ok v
  /\ run0 inner Inbound false (VDict false [(VStr $"u", VNone); (VStr $"t", VNone)])
     <> run0 inner Inbound false (VDict false [(VStr $"t", VNone); (VStr $"u", VNone)]).
Proof.
  cbv zeta. split; [|split; [reflexivity|split; [reflexivity|vm_compute; discriminate]]].
  apply sh_structure; [reflexivity| | | |exact I|].
  - cbn; intuition (subst; reflexivity).
  - cbn; intuition (subst; reflexivity).
  - apply perm_swap.
  - intros k x y [[= <- <-]|[[= <- <-]|[]]] [[= <-]|[[= <-]|[]]]; try discriminate; auto.
    right. exists $"b". split; [reflexivity|]. split; [intros []|].
    split; [eexists; right; left; reflexivity|].
    intros g [[=]|[[= <-]|[]]].
    apply sh_sequence; [reflexivity|]. constructor; [|constructor].
    assert (Hin : shuffled env0
       (Fld p0 (KStructure (SPlain [($"x", Fld p0 (KInteger None None)); ($"y", Fld p0 KBoolean)]) true None))
       (VDict false [(VStr $"x", VInt 2); (VStr $"y", VBool true)])
       (VDict false [(VStr $"y", VBool true); (VStr $"x", VInt 2)])).
    { apply sh_structure; [reflexivity| | | |exact I|].
      - cbn; intuition (subst; reflexivity).
      - cbn; intuition (subst; reflexivity).
      - apply perm_swap.
      - intros k' x' y' [[= <- <-]|[[= <- <-]|[]]] [[= <-]|[[= <-]|[]]]; try discriminate; auto. }
    eapply sh_union; [right; left; reflexivity|exact Hin|].
    intros h [<-|[<-|[]]]; [right|left; exact Hin].
    split; [left; repeat eexists|]. repeat split.
Qed.
@end *)

(** @prop C32 Completeness up to the order of the entries of dicts: a value that differs from a conforming one
    only in the order of the entries of dicts that stand for structures, at any depth, is accepted, and the
    conforming value is returned, with the entries in the order of the schema.  The exclusions are those of
    [process_complete_partial]. *)
Lemma process_complete_reordered_partial :
  forall E desc recon n f anc v w,
    throughout E well_keyed f -> throughout E (tidy E) f ->
    conforms E n f v -> shuffled E f v w ->
    process_gen E desc recon n f false Inbound false anc w = Ok v.
Proof.
  intros E desc recon n f anc v w Hw Ht Hc Hs.
  assert (H := order_irrelevant E desc recon n f false Inbound false anc v w Hs).
  rewrite (process_complete_partial E desc recon n f anc v Hw Ht Hc) in H.
  destruct H as [H|[e [e' [H _]]]]; [symmetry; exact H|discriminate].
Qed.

(** @example
(* The dict that lists the keys backwards is put in the order of the schema. *)
Example C32_reordered_example :
  let f := Fld p0 (KStructure (SPlain [($"a", Fld p_req (KInteger (Some 1%Z) None)); ($"c", Fld p0 KBoolean)]) true None) in
  let v := VDict false [(VStr $"a", VInt 3); (VStr $"c", VBool true)] in
  let w := VDict false [(VStr $"c", VBool true); (VStr $"a", VInt 3)] in
  throughout env0 well_keyed f /\ throughout env0 (tidy env0) f /\ conforms env0 0 f v /\ shuffled env0 f v w
  /\ run0 f Inbound false w = Ok v.
Proof.
  repeat split; try discriminate.
  - constructor.
    + cbn. split; [|exact I]. repeat constructor; cbn; intuition discriminate.
    + intros g [<-|[<-|[]]]; constructor; [exact I|intros ? []|exact I|intros ? []].
  - constructor.
    + repeat split; discriminate.
    + intros g [<-|[<-|[]]]; constructor; [repeat split; discriminate|intros ? []|repeat split; discriminate|intros ? []].
  - right. split; [discriminate|]. eexists. split; [reflexivity|]. split; [|split].
    + apply sublist_take, sublist_take, sublist_nil.
    + intros k y [H|[H|[]]]; injection H as <- <-.
      * eexists. split; [left; reflexivity|]. right. split; [discriminate|]. split; [|split; [left; reflexivity|intros _; split; [discriminate|exact I]]].
        exists 3%Z. split; [reflexivity|]. split; intros m [= <-]; lia.
      * eexists. split; [right; left; reflexivity|]. right. split; [discriminate|]. split; [|split; [left; reflexivity|intros _; split; [discriminate|exact I]]].
        exists true. reflexivity.
    + intros k c _ Hin Hno. exists p0. destruct Hin as [H|[H|[]]]; injection H as <- <-.
      * exfalso. apply Hno. left. reflexivity.
      * exfalso. apply Hno. right. left. reflexivity.
  - apply sh_structure; [reflexivity| | | |exact I|].
    + cbn; intuition (subst; reflexivity).
    + cbn; intuition (subst; reflexivity).
    + apply perm_swap.
    + intros k x y [[= <- <-]|[[= <- <-]|[]]] [[= <-]|[[= <-]|[]]]; try discriminate; auto.
Qed.
@end *)
