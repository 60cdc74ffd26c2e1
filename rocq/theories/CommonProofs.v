(** * The field for the serialization of errors (C92). *)
(* @imports Spec Demo Common CommonSpec Env Msg MsgSpec *)
From Verif Require Import PyBaseFacts ProcessFacts Induct Spec Demo ScalarProofs SeqProofs MapProofs LocProofs Common CommonSpec Env Msg MsgSpec MsgProofs.

Lemma Forall2_weaken {A B} (P Q : A -> B -> Prop) l m :
  (forall a b, P a b -> Q a b) -> Forall2 P l m -> Forall2 Q l m.
Proof. intros H. induction 1; constructor; auto. Qed.

Lemma Forall2_nth_iff {A B} (R : A -> B -> Prop) l m : Forall2 R l m <-> pointwise (fun _ => R) l m.
Proof.
  split.
  - induction 1 as [|a b l m H _ [Hl Hn]]; (split; [cbn; congruence|]); intros [|i] x y Hx Hy; try discriminate; cbn in *.
    + congruence.
    + eauto.
  - revert m. induction l as [|a l IH]; intros [|b m] [Hl Hn]; try discriminate Hl; constructor.
    + exact (Hn 0%nat a b eq_refl eq_refl).
    + apply IH. split; [cbn in Hl; congruence|]. intros i. exact (Hn (S i)).
Qed.

Section C.
Variables (E : env) (desc : field -> res val) (recon : val -> res field) (n : nat).
Notation run f partial ph ser anc v := (process_gen E desc recon n f partial ph ser anc v).
Notation text_part := (Fld (p_described true VNone) (KText None None None true)).

Lemma text_part_run partial ph ser anc v r :
  run text_part partial ph ser anc v = Ok r
  <-> exists s t, v = VStr s /\ r = VStr t /\ stripped s t.
Proof.
  assert (Hp : plain (p_described true VNone)) by (split; reflexivity).
  assert (Hv : v = VNone \/ v <> VNone) by (destruct v; auto; right; discriminate). destruct Hv as [->|Hv].
  { rewrite null_rejected by reflexivity. split; [discriminate|]. intros [s [t [H _]]]. discriminate. }
  rewrite process_text by assumption. cbn [validate_value].
  destruct v; try (split; [discriminate|intros [? [? [H _]]]; discriminate]).
  split.
  - intros H. exists s, (strip is_space s). split; [reflexivity|]. split; [|apply stripped_strip; reflexivity].
    cbn in H. congruence.
  - intros [s' [t [[= <-] [-> Ht]]]]. apply stripped_strip in Ht. subst. reflexivity.
Qed.

Lemma defined_Fld p k : defined E (Fld p k).
Proof. exists p. constructor. Qed.

Lemma map_surrogate p vf kf req partial ph ser anc v l :
  p_preprocessor p = None -> as_dict v = Some l ->
  run (Fld p (KMap vf kf req)) partial ph ser anc v = run (Fld p (KMap vf kf req)) partial ph ser anc (VDict false l).
Proof.
  intros Hp Hl. rewrite !process_Fld. unfold process_body. cbn [kmap]. unfold process_map.
  destruct v; try discriminate Hl; injection Hl as ->; rewrite !is_null_some by discriminate; cbn [bind as_dict];
    unfold pre_raw; rewrite Hp; reflexivity.
Qed.

Lemma map_refuses p vf kf req partial ph ser anc v :
  v <> VNone -> as_dict v = None ->
  run (Fld p (KMap vf kf req)) partial ph ser anc v = terr (path_of p (KMap vf kf req) anc) $"invalid".
Proof.
  intros Hv Hl. rewrite process_Fld. unfold process_body. rewrite (path_of_eq p (KMap vf kf req) anc) by reflexivity.
  cbn [kmap]. unfold process_map. rewrite is_null_some by exact Hv. cbn [bind]. rewrite Hl. reflexivity.
Qed.

Lemma map_part_run d partial ph ser anc v r :
  (forall l, as_dict v = Some l -> distinct (e_local E) (map fst l)) ->
  (run (Fld (p_described false d) (KMap text_part None None)) partial ph ser anc v = Ok r <-> entry_trimmed v r).
Proof.
  intros Hd. set (p := p_described false d).
  assert (Hv : v = VNone \/ v <> VNone) by (destruct v; auto; right; discriminate). destruct Hv as [->|Hv].
  { rewrite null_accepted by reflexivity. split; [intros [= <-]; left; auto|].
    intros [[_ ->]|[l [m [H _]]]]; [reflexivity|discriminate]. }
  destruct (as_dict v) as [l|] eqn:Hl.
  2:{ rewrite map_refuses by assumption. split; [discriminate|].
      intros [[H _]|[l [m [H _]]]]; [contradiction|congruence]. }
  rewrite (map_surrogate p _ _ _ _ _ _ _ v l) by (reflexivity || exact Hl).
  assert (Hm := map_accepts E desc recon n p text_part None None partial ph ser anc false l eq_refl (defined_Fld _ _) (Forall_nil _) I).
  cbv zeta in Hm. destruct Hm as [H1 H2].
  set (out := run (Fld p (KMap text_part None None)) partial ph ser anc (VDict false l)) in *.
  assert (He : forall entries,
    Forall2 (fun kv ke : val * val => (fst ke = fst kv /\ (exists s, fst kv = VStr s)) /\ hashable (fst ke) = true
       /\ exists s, percent_s E (fst ke) = Some s
            /\ run text_part false ph ser (path_of p (KMap text_part None None) anc ++ [key_segment s]) (snd kv) = Ok (snd ke)) l entries
    <-> Forall2 (fun a b => fst b = fst a
                              /\ exists k s t, fst a = VStr k /\ snd a = VStr s /\ snd b = VStr t
                                               /\ stripped s t) l entries).
  { intros entries. split; apply Forall2_weaken; intros [k x] [k' y]; cbn [fst snd].
    - intros [[-> [s ->]] [_ [s' [_ Hr]]]]. apply text_part_run in Hr. destruct Hr as [a [b [-> [-> Hab]]]].
      split; [reflexivity|]. exists s, a, b. auto.
    - intros [-> [s [a [b [-> [-> [-> Hab]]]]]]]. split; [eauto|]. split; [reflexivity|].
      exists s. split; [reflexivity|]. apply text_part_run. eauto. }
  assert (Hgo : forall entries, Forall2 (fun a b => fst b = fst a
                              /\ exists k s t, fst a = VStr k /\ snd a = VStr s /\ snd b = VStr t
                                               /\ stripped s t) l entries -> out = Ok (VDict false entries)).
  { intros entries Hen. apply H2; [apply He, Hen| |discriminate].
    replace (map fst entries) with (map fst l); [apply Hd; reflexivity|].
    clear - Hen. induction Hen as [|a b l' m [Hf _] _ IH]; [reflexivity|]. cbn [map]. congruence. }
  split.
  - intros Hr. destruct H1 as [H1 _]. destruct H1 as [entries [Hen _]]; [exists r; exact Hr|].
    apply He in Hen. rewrite (Hgo _ Hen) in Hr. injection Hr as <-. right. eauto 6.
  - intros [[H _]|[l' [m [H [-> Hen]]]]]; [contradiction|]. rewrite H in Hl. injection Hl as ->. apply Hgo, Hen.
Qed.

Lemma any_part_run d partial ph ser anc v :
  run (Fld (p_described false d) KField) partial ph ser anc v = Ok v.
Proof.
  assert (Hv : v = VNone \/ v <> VNone) by (destruct v; auto; right; discriminate). destruct Hv as [->|Hv].
  { apply null_accepted. reflexivity. }
  rewrite process_basic by reflexivity. rewrite scalar_plain by (auto; split; reflexivity).
  destruct ser, ph; reflexivity.
Qed.

Lemma sequence_refuses p it mn mx u partial ph ser anc v :
  p_preprocessor p = None -> v <> VNone -> (forall l, v <> VList l) ->
  exists x, run (Fld p (KSequence it mn mx u)) partial ph ser anc v = Raise x.
Proof.
  intros Hp Hv Hl. rewrite process_Fld. unfold process_body. cbn [kmap]. unfold process_sequence.
  rewrite is_null_some by exact Hv. cbn [bind].
  destruct v; try (eexists; reflexivity). exfalso. eapply Hl. reflexivity.
Qed.
End C.

(** @prop C92 The field Errors accepts null and pairs: first null or a list of entries, each null or a dict
    of texts under texts, then anything.  It gives the pair back with the blanks around the texts of the
    entries taken off; everything else it refuses.  It does so in all phases. *)
Lemma errors_field_exact :
  forall E desc recon n partial ph ser anc v r,
    (forall a b, v = VList [a; b] \/ v = VTuple [a; b] -> dicts_proper (e_local E) a) ->
    (process_gen E desc recon n errors_field partial ph ser anc v = Ok r
     <-> (v = VNone /\ r = VNone)
         \/ exists a a' b, (v = VList [a; b] \/ v = VTuple [a; b]) /\ r = VTuple [a'; b] /\ errors_trimmed a a').
Proof.
  intros E desc recon n partial ph ser anc v r Hpr. unfold errors_field.
  match goal with |- context [Fld (p_described false ?x) (KTuple [Fld (p_described false ?y) ?k; ?g])] =>
    set (tp := p_described false x); set (sp := p_described false y); set (sk := k); set (g1 := g) end.
  assert (Hfs : Forall (defined E) [Fld sp sk; g1]).
  { constructor; [apply defined_Fld|]. constructor; [apply defined_Fld|constructor]. }
  assert (Hv : v = VNone \/ v <> VNone) by (destruct v; auto; right; discriminate). destruct Hv as [->|Hv].
  { rewrite null_accepted by reflexivity. split; [intros [= <-]; left; auto|].
    intros [[_ ->]|[a [a' [b [[H|H] _]]]]]; [reflexivity|discriminate|discriminate]. }
  assert (Hl : (exists l, v = VList l \/ v = VTuple l) \/ forall l, v <> VList l /\ v <> VTuple l).
  { destruct v; try (right; intros; split; discriminate); left; eexists; [left|right]; reflexivity. }
  destruct Hl as [[l Hl]|Hl].
  2:{ assert (Hx : exists x, process_gen E desc recon n (Fld tp (KTuple [Fld sp sk; g1])) partial ph ser anc v = Raise x).
      { rewrite process_Fld. unfold process_body. cbn [kmap]. unfold process_tuple.
        rewrite is_null_some by exact Hv. cbn [bind].
        destruct v; try (eexists; reflexivity); exfalso; [exact (proj1 (Hl _) eq_refl)|exact (proj2 (Hl _) eq_refl)]. }
      destruct Hx as [x ->]. split; [discriminate|].
      intros [[H _]|[a [a' [b [[H|H] _]]]]]; [contradiction|destruct (proj1 (Hl _) H)|destruct (proj2 (Hl _) H)]. }
  rewrite (tuple_accepts E desc recon n tp _ partial ph ser anc v l r eq_refl Hfs Hl).
  assert (Hseq : forall anc' a a', dicts_proper (e_local E) a ->
     (process_gen E desc recon n (Fld sp sk) false ph ser anc' a = Ok a' <-> errors_trimmed a a')).
  { intros anc' a a' Ha.
    assert (Hn : a = VNone \/ a <> VNone) by (destruct a; auto; right; discriminate). destruct Hn as [->|Hn].
    { rewrite null_accepted by reflexivity. split; [intros [= <-]; left; auto|].
      intros [[_ ->]|[x [y [H _]]]]; [reflexivity|discriminate]. }
    assert (Hll : (exists es, a = VList es) \/ forall es, a <> VList es) by (destruct a; try (right; intros; discriminate); left; eexists; reflexivity).
    destruct Hll as [[es ->]|Hll].
    2:{ destruct (sequence_refuses E desc recon n sp (Fld (p_described false (VStr $"A mapping describing an error."))
                 (KMap (Fld (p_described true VNone) (KText None None None true)) None None)) None None false false ph ser anc' a eq_refl Hn Hll) as [x Hx].
        unfold sk. rewrite Hx. split; [discriminate|]. intros [[H _]|[x' [y [H _]]]]; [contradiction|destruct (Hll _ H)]. }
    unfold sk. rewrite sequence_accepts by (reflexivity || apply defined_Fld).
    split.
    - intros [_ [_ [rs [-> [[Hlen Hpt] _]]]]]. right. exists es, rs. split; [reflexivity|]. split; [reflexivity|].
      apply Forall2_nth_iff. split; [exact Hlen|]. intros i x y Hx Hy.
      assert (Hr := Hpt i x y Hx Hy). apply map_part_run in Hr; [exact Hr|].
      intros items Hi. eapply Ha; [reflexivity|eapply nth_error_In; exact Hx|exact Hi].
    - intros [[H _]|[x [rs [[= <-] [-> Hf]]]]]; [discriminate|].
      split; [unfold at_least; intros; discriminate|]. split; [unfold at_most; intros; discriminate|]. exists rs. split; [reflexivity|]. split; [|discriminate].
      apply Forall2_nth_iff in Hf. destruct Hf as [Hlen Hf]. split; [exact Hlen|].
      intros i x y Hx Hy. apply map_part_run; [|exact (Hf i x y Hx Hy)].
      intros items Hi. eapply Ha; [reflexivity|eapply nth_error_In; exact Hx|exact Hi]. }
  split.
  - intros [Hlen [rs [-> [Hlr Hall]]]]. right.
    destruct l as [|a [|b [|]]]; try discriminate Hlen. destruct rs as [|a' [|b' [|]]]; try discriminate Hlr.
    exists a, a', b. split; [exact Hl|].
    assert (H0 := Hall 0%nat _ _ _ eq_refl eq_refl eq_refl). assert (H1 := Hall 1%nat _ _ _ eq_refl eq_refl eq_refl).
    unfold g1 in H1. rewrite any_part_run in H1. injection H1 as <-.
    split; [reflexivity|]. apply Hseq in H0; [exact H0|]. apply (Hpr a b Hl).
  - intros [[H _]|[a [a' [b [H [-> Ht]]]]]]; [contradiction|].
    assert (l = [a; b]) as -> by (destruct Hl as [->| ->], H as [H|H]; congruence).
    split; [reflexivity|]. exists [a'; b]. split; [reflexivity|]. split; [reflexivity|].
    intros [|[|i]] f x y Hf Hx Hy.
    + injection Hf as <-. injection Hx as <-. injection Hy as <-. apply Hseq; [apply (Hpr a b H)|exact Ht].
    + injection Hf as <-. injection Hx as <-. injection Hy as <-. apply any_part_run.
    + destruct i; discriminate Hf.
Qed.

(** @example
Example C92_example :
  let f v := process_gen env0 nodesc norecon 3 errors_field false Inbound true [] v in
  let entry s := VDict false [(VStr $"token", VStr $"invalid"); (VStr $"message", VStr s)] in
  f (VList [VList [entry $" a is bad "; VNone]; VInt 3]) = Ok (VTuple [VList [entry $"a is bad"; VNone]; VInt 3])
  /\ f (VTuple [VNone; VNone]) = Ok (VTuple [VNone; VNone])
  /\ rejected (f (VTuple [VList [VStr $"a"]; VNone]))
  /\ rejected (f (VTuple [VList [VDict false [(VStr $"token", VNone)]]; VNone]))
  /\ dicts_proper (e_local env0) (VList [entry $" a is bad "; VNone]).
Proof.
  cbv zeta. split; [vm_compute; reflexivity|]. split; [vm_compute; reflexivity|].
  split; [eexists; vm_compute; reflexivity|]. split; [eexists; vm_compute; reflexivity|].
  intros l e items [= <-] [<-|[<-|[]]] H; [injection H as <-|discriminate].
  split; [|split; [intros k []|exact I]]. intros k [<-|[]]. vm_compute. reflexivity.
Qed.
@end *)

Lemma tidy_trimmed x : entry_tidy x -> entry_trimmed x x.
Proof.
  intros [l [-> H]]. right. exists l, l. split; [reflexivity|]. split; [reflexivity|].
  induction H as [|a l [k [s [-> Hs]]] _ IH]; constructor; [|exact IH].
  split; [reflexivity|]. exists k, s, s. auto.
Qed.

(** @prop C92 The serialization of an error whose entries are dicts of texts without blanks around them is
    accepted unchanged, inbound and outbound, whatever the structure of the error. *)
Lemma serialized_errors_fit :
  forall E desc recon n partial ph ser anc e,
    Forall entry_tidy (er_errors e) ->
    (forall x items, In x (er_errors e) -> as_dict x = Some items -> distinct (e_local E) (map fst items)) ->
    process_gen E desc recon n errors_field partial ph ser anc (err_serialize e) = Ok (err_serialize e).
Proof.
  intros E desc recon n partial ph ser anc e Ht Hd.
  assert (Hs : ser_errors (er_errors e) = er_errors e).
  { clear Hd. unfold ser_errors. induction Ht as [|x l [m [-> _]] _ IH]; [reflexivity|]. cbn [map as_dict]. congruence. }
  assert (Hf : Forall2 entry_trimmed (er_errors e) (er_errors e)).
  { clear - Ht. induction Ht as [|x l H _ IH]; constructor; [apply tidy_trimmed, H|exact IH]. }
  apply errors_field_exact.
  - intros a b [H|H]; [discriminate|]. unfold err_serialize in H. intros l x items Hl Hx Hi.
    destruct (er_errors e) as [|y ys] eqn:He; [congruence|]. rewrite Hs in H.
    assert (l = y :: ys) as -> by congruence. eapply Hd; eassumption.
  - right. unfold err_serialize. eexists. eexists. eexists. split; [right; reflexivity|]. split; [reflexivity|].
    destruct (er_errors e) as [|y ys] eqn:He; [left; auto|]. right. rewrite Hs. eauto.
Qed.

(** @example
Example C92_fit_example :
  let entry := VDict false [(VStr $"token", VStr $"invalid"); (VStr $"title", VStr $"invalid value")] in
  let e := Err CValidation [entry] [$"(field)"]
               (Some (VDict false [(VStr $"a", VErr (Err CValidation [entry] [] None true))])) true in
  Forall entry_tidy (er_errors e)
  /\ err_serialize e = VTuple [VList [entry]; VDict false [(VStr $"a", VList [entry])]]
  /\ process_gen env0 nodesc norecon 3 errors_field false Outbound true [] (err_serialize e) = Ok (err_serialize e).
Proof.
  cbv zeta. split; [|split; vm_compute; reflexivity]. constructor; [|constructor].
  eexists. split; [reflexivity|]. constructor; [|constructor; [|constructor]].
  - eexists. eexists. split; [reflexivity|]. exists [], [].
    split; [reflexivity|]. do 2 (split; [constructor|]). split.
    + intros c r [= <- _]. reflexivity.
    + intros c r H. apply (f_equal (fun l => last l 0%N)) in H. rewrite last_last in H. cbn in H. subst c. reflexivity.
  - eexists. eexists. split; [reflexivity|]. exists [], [].
    split; [reflexivity|]. do 2 (split; [constructor|]). split.
    + intros c r [= <- _]. reflexivity.
    + intros c r H. apply (f_equal (fun l => last l 0%N)) in H. rewrite last_last in H. cbn in H. subst c. reflexivity.
Qed.
@end *)

Definition table_tidy (t : list (str * ferror)) : bool :=
  forallb (fun e => str_eqb (strip is_space (fe_token (snd e))) (fe_token (snd e))
                    && str_eqb (strip is_space (fe_title (snd e))) (fe_title (snd e))) t.

Lemma tables_tidy {F} (k : kindP val F) : table_tidy (error_table k) = true.
Proof. destruct k; vm_compute; reflexivity. Qed.

Lemma aget_in_table {V} k (l : list (str * V)) v : aget k l = Some v -> exists k', In (k', v) l.
Proof.
  induction l as [|[a x] l IH]; cbn [aget]; [discriminate|]. destruct (str_eqb k a).
  - intros [= ->]. exists a. left. reflexivity.
  - intros H. destruct (IH H) as [k' Hk]. exists k'. right. exact Hk.
Qed.

(** @prop C92 The entries the library builds are dicts of three texts, under three different keys, and only
    the message may have blanks around it. *)
Lemma built_entries_fit :
  forall E repr fixed p (k : kind) tok given x,
    construct_error E repr fixed p k tok given = Ok x ->
    exists token title message,
      x = message_entry token title message
      /\ (forall items, as_dict x = Some items -> distinct (e_local E) (map fst items))
      /\ (entry_tidy x <-> stripped message message).
Proof.
  intros E repr fixed p k tok given x H. unfold construct_error, construct_entry in H.
  destruct (aget tok (error_table k)) as [e|] eqn:He; [|discriminate].
  apply bind_Ok in H. destruct H as [m [_ H]]. injection H as <-.
  exists (fe_token e), (fe_title e), m. split; [reflexivity|]. split.
  { intros items [= <-]. cbn [map fst]. split; [intros k' [<-|[<-|[]]]; vm_compute; reflexivity|].
    split; [intros k' [<-|[]]; vm_compute; reflexivity|]. split; [intros k' []|exact I]. }
  assert (Ht := tables_tidy k). unfold table_tidy in Ht. rewrite forallb_forall in Ht.
  destruct (aget_in_table _ _ _ He) as [k' Hk]. apply Ht in Hk. apply andb_true_iff in Hk. cbn [snd] in Hk.
  rewrite !str_eqb_eq in Hk. destruct Hk as [H1 H2].
  split.
  - intros [l [[= <-] Hl]]. inversion Hl as [|a b _ Hl1]; subst. inversion Hl1 as [|a b _ Hl2]; subst.
    inversion Hl2 as [|a b [k0 [s [Hks Hs]]] _]; subst.
    assert (s = m) as -> by congruence. exact Hs.
  - intros Hs. eexists. split; [reflexivity|]. constructor; [|constructor; [|constructor; [|constructor]]].
    + eexists. eexists. split; [reflexivity|]. apply stripped_strip. congruence.
    + eexists. eexists. split; [reflexivity|]. apply stripped_strip. congruence.
    + eexists. eexists. split; [reflexivity|]. exact Hs.
Qed.

(** @example
Example C92_built_example :
  exists x, construct_error env0 (fun _ => $"?") (fun _ => $"?") (p_named $"a") (KInteger None None : kind) $"invalid" [] = Ok x
    /\ x = message_entry $"invalid" $"invalid value" $"a must be an integer".
Proof. eexists. split; vm_compute; reflexivity. Qed.
@end *)

(** @prop C92 As stated, that every error a field reports is accepted unchanged, the claim fails: the message
    about a field whose name begins with a blank loses the blank. *)
Lemma errors_unchanged_refuted :
  exists E p (k : kind) x,
    (forall repr fixed, construct_error E repr fixed p k $"invalid" [] = Ok x)
    /\ forall desc recon n,
         accepted (process_gen E desc recon n errors_field false Outbound true []
                     (err_serialize (Err CInvalidType [x] [] None true)))
         /\ process_gen E desc recon n errors_field false Outbound true []
              (err_serialize (Err CInvalidType [x] [] None true))
            <> Ok (err_serialize (Err CInvalidType [x] [] None true)).
Proof.
  exists env0, (p_named $" a"), (KInteger None None). eexists. split; [intros; vm_compute; reflexivity|].
  intros desc recon n.
  set (x := VDict false _). unfold err_serialize. cbn [er_errors er_structure ser_errors map].
  assert (H : process_gen env0 desc recon n errors_field false Outbound true [] (VTuple [VList [x]; VNone])
              = Ok (VTuple [VList [message_entry $"invalid" $"invalid value" $"a must be an integer"]; VNone])).
  { apply errors_field_exact.
    - intros a b [H|H]; [discriminate|]. injection H as <- _. intros l e items [= <-] [<-|[]] [= <-].
      split; [intros k' [<-|[<-|[]]]; vm_compute; reflexivity|].
      split; [intros k' [<-|[]]; vm_compute; reflexivity|]. split; [intros k' []|exact I].
    - right. exists (VList [x]). eexists. exists VNone. split; [right; reflexivity|]. split; [reflexivity|].
      right. eexists. eexists. split; [reflexivity|]. split; [reflexivity|]. constructor; [|constructor].
      right. eexists. eexists. split; [reflexivity|]. split; [reflexivity|].
      repeat (constructor; [split; [reflexivity|]; eexists; eexists; eexists; split; [reflexivity|];
              split; [reflexivity|]; split; [reflexivity|]; apply stripped_strip; vm_compute; reflexivity|]).
      constructor. }
  change (as_dict x) with (Some [(VStr $"token", VStr $"invalid"); (VStr $"title", VStr $"invalid value");
                               (VStr $"message", VStr $" a must be an integer")]).
  cbv iota. rewrite H. split; [eexists; reflexivity|]. discriminate.
Qed.
