(** * Surrogates sent through JSON by fields (C80). *)
(* @imports Spec Demo RtSpec JsonSpec IoSpec CarrySpec SurrogateSpec MailSpec *)
From Coq Require Import ZifyBool ZifyN ZifyNat FinFun.
From Verif Require Import PyBaseFacts Induct Spec Demo ProcessFacts NumFacts StructFacts StructProofs YamlProofs ConfProofs DescFacts RtSpec RtProofs
  JsonProofs IoSpec IoProofs CarrySpec CarryProofs SurrogateSpec SurrogateProofs MailSpec.
Open Scope Z_scope.

(** ** Dicts in JSON *)

Definition plain_keys (l : list (val * val)) : Prop :=
  forall k, In k (map fst l) -> exists s, k = VStr s /\ ~ reserved s.

Lemma json_of_dict E o l w : json E (VDict o l) w -> plain_keys l ->
  exists m, w = VDict false m /\ map fst m = map fst l
    /\ Forall2 (fun kv kw => (exists t, key_text E (fst kv) t /\ carried t /\ fst kw = VStr t) /\ json E (snd kv) (snd kw)) l m
    /\ NoDup (map fst m).
Proof.
  intros H Hk. inversion H as [| | | | | | | |v l' m Hl Hm Hn]; subst. cbn in Hl. injection Hl as <-. exists m.
  split; [reflexivity|]. split; [|split; [exact Hm|exact Hn]]. clear - Hm Hk.
  induction Hm as [|a b l m [[t [H1 [_ H2]]] _] _ IH]; [reflexivity|]. cbn [map]. f_equal.
  - destruct (Hk (fst a) (or_introl eq_refl)) as [s [Hs _]]. rewrite Hs in H1 |- *. inversion H1; subst. exact H2.
  - apply IH. intros k Hin. apply Hk. right. exact Hin.
Qed.

Definition pairs_json E (l m : list (val * val)) : Prop :=
  Forall2 (fun kv kw => (exists t, key_text E (fst kv) t /\ carried t /\ fst kw = VStr t) /\ json E (snd kv) (snd kw)) l m
  /\ NoDup (map fst m).

Lemma pairs_json_more E l m k x y :
  pairs_json E l m -> carried k -> ~ In (VStr k) (map fst m) -> json E x y ->
  pairs_json E (l ++ [(VStr k, x)]) (m ++ [(VStr k, y)]).
Proof.
  intros [H1 H2] Hc Hn Hj. split.
  - apply Forall2_app; [exact H1|]. constructor; [|constructor]. cbn [fst snd]. split; [|exact Hj].
    exists k. split; [constructor|]. auto.
  - rewrite map_app. cbn [map fst]. apply NoDup_app'; [exact H2|constructor; [intros []|constructor]|]. intros k' Hin [<-|[]]. exact (Hn Hin).
Qed.

(** ** One surrogate *)

Definition versioned_form (z : Z) (token : str) (l : list (val * val)) : list (val * val) :=
  (if (1 <? z)%Z then l ++ [(VStr $"__version__", VInt z)] else l) ++ [(VStr $"_", VStr token)].
Definition dynamic_form (d : val) (token : str) (l : list (val * val)) : list (val * val) :=
  (l ++ [(VStr $"__schema__", d)]) ++ [(VStr $"_", VStr token)].

Lemma plain_reserved l s : plain_keys l -> reserved s -> ~ In (VStr s) (map fst l).
Proof. intros H Hs Hin. destruct (H _ Hin) as [t [[= ->] Ht]]. exact (Ht Hs). Qed.

Lemma versioned_out E desc recon n p valid impl token z f items o l :
  pristine p -> permitted E valid impl -> identified E impl token -> version_schema E impl z f -> plain_keys l ->
  (forall anc, process_gen E desc recon n f false Outbound true anc (VDict false items) = Ok (VDict o l)) ->
  forall anc, process_gen E desc recon (S n) (Fld p (KSurrogate valid)) false Outbound true anc
                (VSurr impl None (Some z) items) = Ok (VDict o (versioned_form z token l)).
Proof.
  intros Hp Hv [Htok Himp] [Hz Hf] Hl Ho anc.
  assert (Hk1 : ~ In (VStr $"_") (map fst l)) by (apply plain_reserved; [exact Hl|left; reflexivity]).
  assert (Hk3 : ~ In (VStr $"__version__") (map fst l)) by (apply plain_reserved; [exact Hl|right; right; reflexivity]).
  unfold versioned_form. set (l1 := if (1 <? z)%Z then l ++ [(VStr $"__version__", VInt z)] else l).
  assert (Hk4 : ~ In (VStr $"_") (map fst l1)).
  { unfold l1. destruct (1 <? z)%Z; [|exact Hk1]. rewrite map_app, in_app_iff. cbn. intros [H|[H|[]]]; [exact (Hk1 H)|discriminate]. }
  assert (Hnz : (z - 1 <? 0)%Z = false) by lia.
  destruct (e_schemas E impl) as [|f0 fs] eqn:Hs; [destruct (Z.to_nat (z - 1)); discriminate|].
  rewrite surrogate_outbound by assumption. unfold surr_serialize. rewrite Hs. cbn zeta. rewrite Hnz, Hnz, Hf, Ho. cbn [bind].
  assert (He : (if (1 <? z)%Z then entered $"__version__" (VInt z) (VDict o l) else Ok (VDict o l)) = Ok (VDict o l1)).
  { unfold l1, entered. destruct (1 <? z)%Z; [rewrite sset_absent by exact Hk3|]; reflexivity. }
  rewrite He. cbn [bind]. unfold Process.tagged, entered. rewrite Htok, sset_absent by exact Hk4. reflexivity.
Qed.

Lemma versioned_in E desc recon n p valid impl token z f items o l :
  pristine p -> permitted E valid impl -> identified E impl token -> version_schema E impl z f -> plain_keys l ->
  (forall anc o', process_gen E desc recon n f false Inbound true anc (VDict o' l) = Ok (VDict false items)) ->
  forall anc, process_gen E desc recon (S n) (Fld p (KSurrogate valid)) false Inbound true anc
                (VDict o (versioned_form z token l)) = Ok (VSurr impl None (Some z) items).
Proof.
  intros Hp Hv [Htok Himp] [Hz Hf] Hl Hi anc.
  assert (Hk1 : ~ In (VStr $"_") (map fst l)) by (apply plain_reserved; [exact Hl|left; reflexivity]).
  assert (Hk2 : ~ In (VStr $"__schema__") (map fst l)) by (apply plain_reserved; [exact Hl|right; left; reflexivity]).
  assert (Hk3 : ~ In (VStr $"__version__") (map fst l)) by (apply plain_reserved; [exact Hl|right; right; reflexivity]).
  unfold versioned_form. set (l1 := if (1 <? z)%Z then l ++ [(VStr $"__version__", VInt z)] else l).
  assert (Hk4 : ~ In (VStr $"_") (map fst l1)).
  { unfold l1. destruct (1 <? z)%Z; [|exact Hk1]. rewrite map_app, in_app_iff. cbn. intros [H|[H|[]]]; [exact (Hk1 H)|discriminate]. }
  assert (Hnz : (z - 1 <? 0)%Z = false) by lia.
  destruct (e_schemas E impl) as [|f0 fs] eqn:Hs; [destruct (Z.to_nat (z - 1)); discriminate|].
  rewrite surrogate_inbound by assumption. unfold surr_unserialize. cbn [as_dict].
  rewrite sget_here, sdel_here, app_nil_r by exact Hk4. cbn [hashable negb]. rewrite Himp.
  assert (Hk5 : sget $"__schema__" l1 = None).
  { apply sget_absent. unfold l1. destruct (1 <? z)%Z; [|exact Hk2]. rewrite map_app, in_app_iff. cbn. intros [H|[H|[]]]; [exact (Hk2 H)|discriminate]. }
  rewrite Hk5, Hs.
  assert (Hver : match sget $"__version__" l1 with Some w => w | None => VInt 1 end = VInt z).
  { unfold l1. destruct (Z.ltb_spec 1 z) as [Hlt|Hle]; [rewrite sget_here by exact Hk3; reflexivity|].
    rewrite sget_absent by exact Hk3. f_equal. lia. }
  rewrite Hver. cbn zeta. rewrite Hnz, Hnz, Hf.
  assert (Hdel : sdel $"__version__" l1 = l).
  { unfold l1. destruct (1 <? z)%Z; [rewrite sdel_here by exact Hk3; apply app_nil_r|apply sdel_absent, Hk3]. }
  rewrite Hdel, Hi. cbn [bind as_dict]. apply surrogate_valid, Hv.
Qed.

Lemma dynamic_out E desc recon n p valid impl token f d items o l :
  pristine p -> permitted E valid impl -> identified E impl token -> desc f = Ok d -> plain_keys l ->
  (forall anc, process_gen E desc recon n f false Outbound true anc (VDict false items) = Ok (VDict o l)) ->
  forall anc, process_gen E desc recon (S n) (Fld p (KSurrogate valid)) false Outbound true anc
                (VSurr impl (Some f) None items) = Ok (VDict o (dynamic_form d token l)).
Proof.
  intros Hp Hv [Htok Himp] Hd Hl Ho anc.
  assert (Hk1 : ~ In (VStr $"_") (map fst l)) by (apply plain_reserved; [exact Hl|left; reflexivity]).
  assert (Hk2 : ~ In (VStr $"__schema__") (map fst l)) by (apply plain_reserved; [exact Hl|right; left; reflexivity]).
  unfold dynamic_form. set (l1 := l ++ [(VStr $"__schema__", d)]).
  assert (Hk4 : ~ In (VStr $"_") (map fst l1)).
  { unfold l1. rewrite map_app, in_app_iff. cbn. intros [H|[H|[]]]; [exact (Hk1 H)|discriminate]. }
  rewrite surrogate_outbound by assumption. unfold surr_serialize. rewrite Ho. cbn [bind]. rewrite Hd. cbn [bind].
  unfold entered. rewrite sset_absent by exact Hk2. cbn [bind]. fold l1. unfold Process.tagged, entered.
  rewrite Htok, sset_absent by exact Hk4. reflexivity.
Qed.

Lemma dynamic_in E desc recon n p valid impl token f d items o l :
  pristine p -> permitted E valid impl -> identified E impl token -> truthy d = true -> recon d = Ok f -> plain_keys l ->
  (forall anc o', process_gen E desc recon n f false Inbound true anc (VDict o' l) = Ok (VDict false items)) ->
  forall anc, process_gen E desc recon (S n) (Fld p (KSurrogate valid)) false Inbound true anc
                (VDict o (dynamic_form d token l)) = Ok (VSurr impl (Some f) None items).
Proof.
  intros Hp Hv [Htok Himp] Htd Hr Hl Hi anc.
  assert (Hk1 : ~ In (VStr $"_") (map fst l)) by (apply plain_reserved; [exact Hl|left; reflexivity]).
  assert (Hk2 : ~ In (VStr $"__schema__") (map fst l)) by (apply plain_reserved; [exact Hl|right; left; reflexivity]).
  unfold dynamic_form. set (l1 := l ++ [(VStr $"__schema__", d)]).
  assert (Hk4 : ~ In (VStr $"_") (map fst l1)).
  { unfold l1. rewrite map_app, in_app_iff. cbn. intros [H|[H|[]]]; [exact (Hk1 H)|discriminate]. }
  rewrite surrogate_inbound by assumption. unfold surr_unserialize. cbn [as_dict].
  rewrite sget_here, sdel_here, app_nil_r by exact Hk4. cbn [hashable negb]. rewrite Himp.
  unfold l1. rewrite sget_here by exact Hk2. rewrite Htd, Hr. cbn [bind].
  rewrite sdel_here, app_nil_r by exact Hk2. rewrite Hi. cbn [bind as_dict]. apply surrogate_valid, Hv.
Qed.

Lemma low_text_carried (s : str) : forallb (fun c => (c <? 127)%N) s = true -> carried s.
Proof.
  intros H. apply low_carried. apply Forall_forall. intros c Hc. rewrite forallb_forall in H. specialize (H c Hc). lia.
Qed.

Lemma versioned_json E z token l m :
  pairs_json E l m -> plain_keys m -> carried token -> pairs_json E (versioned_form z token l) (versioned_form z token m).
Proof.
  intros H Hm Ht. unfold versioned_form.
  assert (Hk1 : ~ In (VStr $"_") (map fst m)) by (apply plain_reserved; [exact Hm|left; reflexivity]).
  assert (Hk3 : ~ In (VStr $"__version__") (map fst m)) by (apply plain_reserved; [exact Hm|right; right; reflexivity]).
  destruct (1 <? z)%Z.
  - apply pairs_json_more; [apply pairs_json_more; [exact H| |exact Hk3|constructor]| | |apply json_text, Ht];
      try (apply low_text_carried; reflexivity).
    rewrite map_app, in_app_iff. intros [Hx|[Hx|[]]]; [exact (Hk1 Hx)|discriminate].
  - apply pairs_json_more; [exact H|apply low_text_carried; reflexivity|exact Hk1|apply json_text, Ht].
Qed.

Lemma dynamic_json E d token l m :
  pairs_json E l m -> plain_keys m -> carried token -> json E d d -> pairs_json E (dynamic_form d token l) (dynamic_form d token m).
Proof.
  intros H Hm Ht Hd. unfold dynamic_form.
  assert (Hk1 : ~ In (VStr $"_") (map fst m)) by (apply plain_reserved; [exact Hm|left; reflexivity]).
  assert (Hk2 : ~ In (VStr $"__schema__") (map fst m)) by (apply plain_reserved; [exact Hm|right; left; reflexivity]).
  apply pairs_json_more; [apply pairs_json_more; [exact H| |exact Hk2|exact Hd]| | |apply json_text, Ht];
    try (apply low_text_carried; reflexivity).
  rewrite map_app, in_app_iff. intros [Hx|[Hx|[]]]; [exact (Hk1 Hx)|discriminate].
Qed.

(** A structure reads a dict and an ordered dict alike. *)
Lemma schema_either E desc recon n g anc o o' l :
  throughout E (tidy E) g -> unreserved g ->
  process_gen E desc recon n g false Inbound true anc (VDict o l) = process_gen E desc recon n g false Inbound true anc (VDict o' l).
Proof.
  intros [Ht _] [p [d [strict [ko [-> _]]]]]. apply everywhere_top in Ht. destruct Ht as [Hp _].
  rewrite !process_Fld. unfold process_body. cbn [kmap]. unfold process_structure, is_null, pre_raw. rewrite Hp. reflexivity.
Qed.

Lemma schema_ships E desc recon n g items w w' :
  throughout E (tidy E) g -> unreserved g -> ships E desc recon n g (VDict false items) w w' ->
  exists o l m, plain_keys l /\ plain_keys m /\ pairs_json E l m
    /\ (forall anc, process_gen E desc recon n g false Outbound true anc (VDict false items) = Ok (VDict o l))
    /\ (forall anc o', process_gen E desc recon n g false Inbound true anc (VDict o' l) = Ok (VDict false items))
    /\ (forall anc o', process_gen E desc recon n g false Inbound true anc (VDict o' m) = Ok (VDict false items)).
Proof.
  intros Ht Hun [[Ho [Hi _]] [Hj [Hi' _]]].
  destruct (schema_keys E desc recon n g Outbound true [] _ w Hun (Ho [])) as [-> |[o [l [-> Hl]]]].
  - exfalso. destruct Hun as [p [d [strict [ko [-> _]]]]]. specialize (Hi []). rewrite process_Fld in Hi. unfold process_body in Hi. cbn [kmap] in Hi.
    unfold process_structure, is_null in Hi. cbn [bind is_none orb] in Hi. destruct (p_nonnull p); discriminate.
  - destruct (json_of_dict E o l w' Hj Hl) as [m [-> [Hkm [Hm Hn]]]]. exists o, l, m.
    split; [exact Hl|]. split; [unfold plain_keys; rewrite Hkm; exact Hl|]. split; [split; assumption|]. split; [exact Ho|].
    split; intros anc o'; [rewrite <- (Hi anc)|rewrite <- (Hi' anc)]; apply schema_either; assumption.
Qed.

Lemma mailable_ships E desc recon n m f v N :
  mailable E desc recon n m f v -> (n + m * S n <= N)%nat -> exists w w', ships E desc recon N f v w w'.
Proof.
  revert f v N. induction m as [|m IH]; intros f v N H HN;
    (assert (HN' : N = (n + (N - n))%nat) by lia; rewrite HN'; destruct H as [H1 [H2 [H3 [H4 [H5 [H6 H7]]]]]];
     apply ships_beyond; try assumption; intros k x Hx; split; [exact (H6 k x Hx)|]; intros valid -> p M Hp Hc Hxn HM;
     specialize (H7 valid x Hx Hxn)).
  - destruct H7.
  - destruct M as [|M]; [lia|]. destruct H7 as [impl [token [schema [version [items [-> [Hv [Hid [Htok H7]]]]]]]]].
    assert (Hpr : pristine p) by (split; assumption).
    assert (Hback : forall g, unreserved g -> mailable E desc recon n m g (VDict false items) ->
      exists o l l', plain_keys l /\ plain_keys l' /\ pairs_json E l l'
        /\ (forall anc, process_gen E desc recon M g false Outbound true anc (VDict false items) = Ok (VDict o l))
        /\ (forall anc o', process_gen E desc recon M g false Inbound true anc (VDict o' l) = Ok (VDict false items))
        /\ (forall anc o', process_gen E desc recon M g false Inbound true anc (VDict o' l') = Ok (VDict false items))).
    { intros g Hun Hg. destruct (IH g _ M Hg) as [w [w' Hw]]; [lia|].
      assert (Ht : throughout E (tidy E) g) by (destruct m; apply Hg). eapply schema_ships; eauto. }
    assert (Hgoal : exists w w',
      (forall anc, process_gen E desc recon (S M) (Fld p (KSurrogate valid)) false Outbound true anc (VSurr impl schema version items) = Ok w)
      /\ (forall anc, process_gen E desc recon (S M) (Fld p (KSurrogate valid)) false Inbound true anc w = Ok (VSurr impl schema version items))
      /\ json E w w'
      /\ (forall anc, process_gen E desc recon (S M) (Fld p (KSurrogate valid)) false Inbound true anc w' = Ok (VSurr impl schema version items))).
    { destruct schema as [g|], version as [z|]; try contradiction H7.
      - destruct H7 as [d [Hd [Htd [Hr [Hdoc [Hun Hg]]]]]]. destruct (Hback g Hun Hg) as [o [l [l' [Hl [Hl' [Hjs [Ho [Hi Hi']]]]]]]].
        exists (VDict o (dynamic_form d token l)), (VDict false (dynamic_form d token l')).
        split; [eapply dynamic_out; eauto|]. split; [eapply dynamic_in; eauto|]. split; [|eapply dynamic_in; eauto].
        destruct (dynamic_json E d token l l' Hjs Hl' Htok (document_json E d Hdoc)). eapply json_dict; [reflexivity|assumption|assumption].
      - destruct H7 as [g [Hz [Hun Hg]]]. destruct (Hback g Hun Hg) as [o [l [l' [Hl [Hl' [Hjs [Ho [Hi Hi']]]]]]]].
        exists (VDict o (versioned_form z token l)), (VDict false (versioned_form z token l')).
        split; [eapply versioned_out; eauto|]. split; [eapply versioned_in; eauto|]. split; [|eapply versioned_in; eauto].
        destruct (versioned_json E z token l l' Hjs Hl' Htok). eapply json_dict; [reflexivity|assumption|assumption].
      - destruct H7 as [Hs [Hdoc Hr]].
        destruct (bare_round_trip_partial E desc recon M p valid impl token items Hpr Hv Hid Hs) as [w [Ho Hi]];
          [apply Hr; left; reflexivity|apply Hr; right; left; reflexivity|].
        assert (Hw : w = VDict false (items ++ [(VStr $"_", VStr token)])).
        { specialize (Ho []). rewrite surrogate_outbound in Ho by assumption. unfold surr_serialize in Ho. rewrite Hs in Ho.
          unfold Process.tagged, entered in Ho. destruct Hid as [Hid _]. rewrite Hid, sset_absent in Ho by (apply Hr; left; reflexivity).
          apply ok_inj in Ho. symmetry. exact Ho. }
        exists w, w. split; [exact Ho|]. split; [exact Hi|]. split; [|exact Hi]. subst w.
        apply document_json in Hdoc. inversion Hdoc as [| | | | | | | |v0 l' l'' Hl Hm Hn]; subst. cbn in Hl. injection Hl as <-.
        destruct (pairs_json_more E items items $"_" (VStr token) (VStr token)) as [P1 P2];
          [split; assumption|apply low_text_carried; reflexivity|apply Hr; left; reflexivity|apply json_text, Htok|].
        eapply json_dict; [reflexivity|exact P1|exact P2]. }
    destruct Hgoal as [w [w' [Ho [Hi [Hj Hi']]]]]. exists w, w'. split; [|split; [exact Hj|split; [exact Hi'|intros p' k' [= <- <-]; discriminate]]].
    split; [exact Ho|]. split; [exact Hi|]. intros p' k' [= <- <-]. split; discriminate.
Qed.

(** @prop C80 Surrogates inside other values, and inside the contents of other surrogates at any depth, go through
    the format json with the values around them: serializing gives a printable text, and unserializing that
    text gives exactly the value. *)
Lemma surrogates_through_json_partial :
  forall E wrap load desc recon n m f v N k,
    mailable E desc recon n m f v -> (n + m * S n <= N)%nat -> keyed (Json E) k ->
    let reg := formats E wrap load in
    exists t,
      field_serialize E desc recon N reg f v (Some k) = Ok (VStr t)
      /\ (forall c, In c t -> (32 <= c <= 126)%N)
      /\ field_unserialize E desc recon N reg f t k = Ok v.
Proof.
  intros E wrap load desc recon n m f v N k H HN Hk reg.
  destruct (mailable_ships E desc recon n m f v N H HN) as [w [w' [[Ho _] [Hj [Hi _]]]]].
  destruct (json_roundtrip E w w' Hj) as [t [Ht [Hc Hu]]]. exists t.
  unfold field_serialize, field_unserialize, format_serialize, format_unserialize.
  rewrite (json_given E k Hk), Ho. cbn [bind]. unfold reg. rewrite (json_found E wrap load k Hk). cbn [fm_serialize fm_unserialize Json].
  rewrite Ht, Hu. cbn [bind]. split; [reflexivity|]. split; [exact Hc|apply Hi].
Qed.

(** @example
(* A list of surrogates; the first one has a versioned schema and holds another surrogate. *)
Definition holder80 : field := Fld p0 (KStructure (SPlain [($"inner", Fld p0 (KSurrogate None))]) true None).
Definition env80 : env := {|
  e_pre := e_pre env0; e_ext := e_ext env0; e_inst := e_inst env0; e_pattern := e_pattern env0; e_local := e_local env0;
  e_pad := true; e_udigit := e_udigit env0; e_uword := e_uword env0; e_ulower := e_ulower env0; e_import := e_import env0;
  e_identify := e_identify env0; e_undef := fun _ => None; e_str := e_str env0;
  e_impl := fun t => match t with VStr s => if str_eqb s $"pkg.S" then 1%nat else if str_eqb s $"pkg.T" then 2%nat else 0%nat | _ => 0%nat end;
  e_schemas := fun i => match i with 1%nat => [holder80; holder80] | _ => [] end;
  e_surrogate := fun i => match i with 1%nat => Some $"pkg.S" | 2%nat => Some $"pkg.T" | _ => None end; e_identity := fun _ => None;
  e_compile := e_compile env0; e_repr := e_repr env0 |}.
Lemma low80 (s : str) : forallb (fun c => (c <? 127)%N) s = true -> carried s.
Proof.
  intros H. assert (Hc : forall c, In c s -> (c < 127)%N).
  { intros c Hc. rewrite forallb_forall in H. specialize (H c Hc). cbv beta in H. apply N.ltb_lt in H. exact H. }
  split.
  - intros c Hin. specialize (Hc c Hin). lia.
  - intros a h l b -> Hx. assert (Hh : In h (a ++ h :: l :: b)) by (apply in_or_app; right; left; reflexivity).
    specialize (Hc h Hh). lia.
Qed.
Definition seq80 : field := Fld p0 (KSequence (Fld p0 (KSurrogate None)) None None false).
Definition plain80 : val := VSurr 2 None None [(VStr $"id", VInt 4)].
Definition list80 : val := VList [VSurr 1 None (Some 2%Z) [(VStr $"inner", plain80)]; VNone; plain80].
Lemma mailable80 : mailable env80 nodesc norecon 0 2 seq80 list80.
Proof.
  assert (Hany : forall P : params -> kind -> Prop, (forall p d valid, p = p0 -> carried d -> P p (KSurrogate valid) /\ P p (KStructure (SPlain [(d, Fld p0 (KSurrogate None))]) true None)
                                                   /\ P p (KSequence (Fld p0 (KSurrogate None)) None None false)) ->
            throughout env80 P seq80 /\ throughout env80 P holder80).
  { intros P HP. assert (Hs : everywhere P (Fld p0 (KSurrogate None))) by (constructor; [apply (HP p0 $"inner" None eq_refl), low80; reflexivity|intros g []]).
    assert (HP' := HP p0 $"inner" None eq_refl (low80 $"inner" eq_refl)).
    split; (split; [|discriminate]); constructor.
    - apply HP'.
    - intros g [<-|[]]. exact Hs.
    - apply HP'.
    - intros g [<-|[]]. exact Hs. }
  assert (Hwk : throughout env80 well_keyed seq80 /\ throughout env80 well_keyed holder80).
  { apply Hany. intros p d valid -> _. split; [exact I|]. split; [|exact I]. split; [|exact I]. constructor; [intros []|constructor]. }
  assert (Hti : throughout env80 (tidy env80) seq80 /\ throughout env80 (tidy env80) holder80).
  { apply Hany. intros p d valid -> _. repeat split. }
  assert (Htr : throughout env80 (transportable env80) seq80 /\ throughout env80 (transportable env80) holder80).
  { apply Hany. intros p d valid -> _. repeat split. }
  assert (Hjp : throughout env80 (json_portable env80) seq80 /\ throughout env80 (json_portable env80) holder80).
  { apply Hany. intros p d valid -> Hd. split; [exact I|]. split; [|exact I]. intros name [<-|[]]. exact Hd. }
  assert (Hc : forall i z l, conforms env80 0 (Fld p0 (KSurrogate None)) (VSurr i None z l)).
  { intros i z l. right. split; [discriminate|]. split; [exists i, None, z, l; repeat split; exact I|]. split; [left; reflexivity|].
    intros _. split; [discriminate|exact I]. }
  assert (Hplain : exists impl token schema version items, plain80 = VSurr impl schema version items
            /\ permitted env80 None impl /\ identified env80 impl token /\ carried token
            /\ schema = None /\ version = None /\ e_schemas env80 impl = [] /\ document env80 (VDict false items)
            /\ forall s, reserved s -> ~ In (VStr s) (map fst items)).
  { exists 2%nat, $"pkg.T", None, None, [(VStr $"id", VInt 4)]. split; [reflexivity|]. split; [exact I|]. split; [split; reflexivity|].
    split; [apply low80; reflexivity|]. split; [reflexivity|]. split; [reflexivity|]. split; [reflexivity|]. split.
    - constructor; [constructor; [intros []|constructor]| |]; intros k v [[= <- <-]|[]]; [|constructor].
      eexists. split; [reflexivity|apply low80; reflexivity].
    - intros s [->|[->| ->]] [H|[]]; discriminate. }
  split; [apply Hwk|]. split; [apply Hti|]. split; [apply Htr|]. split; [apply Hjp|]. split; [|split].
  - right. split; [discriminate|]. exists [VSurr 1 None (Some 2%Z) [(VStr $"inner", plain80)]; VNone; plain80].
    split; [reflexivity|]. split; [discriminate|]. split; [discriminate|]. split; [|discriminate].
    constructor; [apply Hc|]. constructor; [left; split; reflexivity|]. constructor; [apply Hc|constructor].
  - intros k x Hx. inversion Hx; subst; [split; right; exact I|]. match goal with H : meets _ (Fld _ (KSurrogate _)) _ _ _ |- _ => inversion H end. split; right; exact I.
  - intros valid x Hx Hxn. inversion Hx; subst. match goal with H : meets _ (Fld _ (KSurrogate _)) _ _ _ |- _ => inversion H; subst; clear H end.
    match goal with H : In _ _ |- _ => destruct H as [<-|[<-|[<-|[]]]] end; [|congruence|].
    + exists 1%nat, $"pkg.S", None, (Some 2%Z), [(VStr $"inner", plain80)]. split; [reflexivity|]. split; [exact I|]. split; [split; reflexivity|].
      split; [apply low80; reflexivity|].
      exists holder80. split; [split; [vm_compute; split; discriminate|reflexivity]|]. split.
      { exists p0, (SPlain [($"inner", Fld p0 (KSurrogate None))]), true, None. split; [reflexivity|]. intros s [<-|[]] [H|[H|H]]; discriminate. }
      split; [apply Hwk|]. split; [apply Hti|]. split; [apply Htr|]. split; [apply Hjp|]. split; [|split].
      * right. split; [discriminate|]. exists [(VStr $"inner", plain80)]. split; [reflexivity|]. split; [|split].
        -- apply sublist_take, sublist_nil.
        -- intros k y [[= <- <-]|[]]. exists (Fld p0 (KSurrogate None), conforms env80 0 (Fld p0 (KSurrogate None))). split; [left; reflexivity|]. apply Hc.
        -- intros k c [<-|[]] _ Hn. exfalso. apply Hn. left. reflexivity.
      * intros k x Hx'. inversion Hx'; subst; [split; right; exact I|].
        match goal with H : In _ [(_, Fld _ _)] |- _ => destruct H as [[= <- <-]|[]] end.
        match goal with H : meets _ (Fld _ (KSurrogate _)) _ _ _ |- _ => inversion H end. split; right; exact I.
      * intros valid x Hx' Hxn'. inversion Hx'; subst.
        match goal with H : In _ [(_, Fld _ _)] |- _ => destruct H as [[= <- <-]|[]] end.
        match goal with H : In _ [(_, plain80)] |- _ => destruct H as [[= <-]|[]] end.
        match goal with H : meets _ (Fld _ (KSurrogate _)) _ _ _ |- _ => inversion H; subst end.
        destruct Hplain as [impl [token [schema [version [items [-> [H1 [H2 [H2' [-> [-> [H3 [H3' H4]]]]]]]]]]]]]. exists impl, token, None, None, items. auto 8.
    + destruct Hplain as [impl [token [schema [version [items [-> [H1 [H2 [H2' [-> [-> [H3 [H3' H4]]]]]]]]]]]]]. exists impl, token, None, None, items. auto 8.
Qed.
Example C80_surrogates_example :
  let reg := formats env80 (fun _ t => [t]) (fun _ => Ok VNone) in
  let t := $"[{""inner"": {""id"": 4, ""_"": ""pkg.T""}, ""__version__"": 2, ""_"": ""pkg.S""}, null, {""id"": 4, ""_"": ""pkg.T""}]" in
  mailable env80 nodesc norecon 0 2 seq80 list80
  /\ field_serialize env80 nodesc norecon 2 reg seq80 list80 (Some (ByText $"json")) = Ok (VStr t)
  /\ field_unserialize env80 nodesc norecon 2 reg seq80 t (ByText $"json") = Ok list80.
Proof. split; [exact mailable80|]. vm_compute. split; reflexivity. Qed.
@end *)

(** @prop C80 So for files, as above. *)
Lemma surrogates_in_json_files_partial :
  forall E wrap load desc recon n m f v N w path format quiet,
    mailable E desc recon n m f v -> (n + m * S n <= N)%nat ->
    (exists k, format = Some k /\ keyed (Json E) k) \/ format = None /\ path_with path $"json" ->
    path <> [] -> w_readable w path = true -> w_writable w path = true -> w_node w path <> Some Folder ->
    let reg := formats E wrap load in
    exists w',
      field_write E desc recon N reg w f path v format = (Ok tt, w')
      /\ field_read E desc recon N reg w' f path format quiet = Ok v
      /\ only_changed path w w'.
Proof.
  intros E wrap load desc recon n m f v N w path format quiet H HN Hf Hp Hr Hw Hn reg.
  destruct (mailable_ships E desc recon n m f v N H HN) as [x [x' [[Ho _] [Hj [Hi _]]]]].
  destruct (json_roundtrip E x x' Hj) as [t [Ht [Hc Hu]]].
  assert (Hres : resolve E reg None format path = Ok (Json E)).
  { destruct Hf as [[k [-> Hk]]|[-> Hx]].
    - unfold resolve. rewrite (json_given E k Hk). unfold reg. rewrite (json_found E wrap load k Hk). reflexivity.
    - unfold resolve. cbn [given]. rewrite (splitext_with path $"json" Hx). reflexivity. }
  exists (set_file w path t). split; [|split; [|apply set_file_other]].
  - unfold field_write. rewrite Ho. unfold format_write. rewrite Hres. unfold open_new. rewrite Hw. cbn [fm_serialize Json].
    rewrite Ht, encodable_ascii by exact Hc. destruct (w_node w path) as [[| |]|]; try reflexivity. congruence.
  - unfold field_read, format_read. destruct path as [|c path]; [congruence|]. rewrite set_file_same, Hres.
    cbn [bind]. unfold read_file. rewrite set_file_same. cbn [w_readable set_file]. rewrite Hr. cbn [bind fm_unserialize Json].
    rewrite universal_plain; [rewrite Hu; apply Hi|]. intros Hx. apply Hc in Hx. lia.
Qed.

(** @example
Example C80_surrogate_file_example :
  let reg := formats env80 (fun _ t => [t]) (fun _ => Ok VNone) in
  let w : world := {| w_node := fun _ => None; w_readable := fun _ => true; w_writable := fun _ => true |} in
  mailable env80 nodesc norecon 0 2 seq80 list80 /\ path_with $"a.json" $"json"
  /\ let r := field_write env80 nodesc norecon 2 reg w seq80 $"a.json" list80 None in
     fst r = Ok tt /\ field_read env80 nodesc norecon 2 reg (snd r) seq80 $"a.json" None false = Ok list80.
Proof.
  split; [exact mailable80|]. split; [|split; vm_compute; reflexivity].
  exists [], $"a". split; [reflexivity|]. split; [left; reflexivity|].
  split; [cbn; intuition discriminate|]. split; [exists 97%N; split; [left; reflexivity|discriminate]|].
  split; cbn; intuition discriminate.
Qed.
@end *)
