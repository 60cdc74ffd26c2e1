(** * The serialization round trip of whole schemas (C34). *)
(* @imports Spec Demo RtSpec *)
From Coq Require Import ZifyBool ZifyN ZifyNat FinFun.
From Verif Require Import PyBaseFacts Induct Spec Demo ProcessFacts ScalarProofs NumProofs B64Proofs StructFacts
  SeqProofs MapProofs StructProofs ConfProofs CalSpec CalFacts CalText CalProofs RtSpec.
Open Scope Z_scope.

(** ** Scalars *)

(** Processing a value that a field leaves alone, in the outbound direction. *)
Lemma scalar_outbound {F} E p (k : kindP val F) unser ser_v anc v w :
  process_scalar E p k unser ser_v Inbound false anc v = Ok v ->
  v <> VNone -> ser_v v = Ok w ->
  process_scalar E p k unser ser_v Outbound true anc v = Ok w.
Proof.
  unfold process_scalar. intros H Hv Hw. cbn [phase_eqb andb] in *.
  destruct (is_null _ _ _ _ _) as [nul|]; cbn [bind] in *; [|discriminate].
  destruct nul; [congruence|].
  destruct (match preprocess E p k v with Ok w0 => Ok w0 | Raise _ => construct_invalid k anc end) as [v2|]; cbn [bind] in *; [|discriminate].
  destruct (if is_none (p_constant p) then _ else _) as [c|]; cbn [bind] in *; [|discriminate].
  destruct c; cbn [negb] in *; [|destruct k; discriminate].
  destruct (validate_value E k anc v2) as [v3|]; cbn [bind] in *; [|discriminate].
  injection H as ->. rewrite Hw. reflexivity.
Qed.

(** ... and unserializing what becomes such a value. *)
Lemma scalar_inbound {F} E p (k : kindP val F) unser ser_v anc v w :
  process_scalar E p k unser ser_v Inbound false anc v = Ok v ->
  v <> VNone -> w <> VNone -> kind_ignored k = None -> unser anc w = Ok v ->
  process_scalar E p k unser ser_v Inbound true anc w = Ok v.
Proof.
  unfold process_scalar. intros H Hv Hw Hi Hu. cbn [phase_eqb andb] in *. rewrite Hi in *.
  rewrite is_null_some in H by exact Hv. rewrite is_null_some by exact Hw. cbn [bind] in *. rewrite Hu. cbn [bind]. exact H.
Qed.

Lemma scalar_inbound_same {F} E p (k : kindP val F) unser ser_v anc v :
  process_scalar E p k unser ser_v Inbound false anc v = Ok v -> unser anc v = Ok v ->
  process_scalar E p k unser ser_v Inbound true anc v = Ok v.
Proof.
  unfold process_scalar. intros H Hu. cbn [phase_eqb andb] in *. rewrite Hu. exact H.
Qed.

(** A reading in UTC, and back to the local time without daylight saving. *)
Lemma dt_unique a b : existing a -> existing b -> dt_secs a = dt_secs b ->
  t_us (dt_time a) = t_us (dt_time b) -> dt_tz a = dt_tz b -> a = b.
Proof.
  intros Ha Hb H1 H2 H3. pose proof (of_secs_dt_secs a Ha) as E1. pose proof (of_secs_dt_secs b Hb) as E2.
  rewrite H1, H2, H3 in E1. congruence.
Qed.

Lemma to_local_some L dt : lt_dst L = lt_std L -> existing dt ->
  0 <= dt_secs dt + lt_std L < max_secs -> exists u, astimezone L dt TzUTC TzLocal = Some u.
Proof.
  intros HL He Hr. unfold astimezone. cbn [utcoffset].
  pose proof (dt_secs_range _ He).
  destruct (dt_add_some dt (- 0) ltac:(lia)) as [a Ha]. rewrite Ha.
  apply dt_add_spec in Ha; [|exact He]. destruct Ha as [Ea [Sa [Ua Za]]]. unfold fromutc.
  assert (Hd : forall s, dstoffset L TzLocal s = 0) by (intros s; cbn; rewrite HL; destruct (lt_isdst L s); lia).
  assert (Ho : forall s, utcoffset L TzLocal s = lt_std L) by (intros s; cbn; rewrite HL; destruct (lt_isdst L s); reflexivity).
  rewrite Hd, Ho.
  assert (Ew : existing (with_tz a (Some TzLocal))) by exact Ea.
  assert (Sw : dt_secs (with_tz a (Some TzLocal)) = dt_secs a) by reflexivity.
  destruct (dt_add_some (with_tz a (Some TzLocal)) (lt_std L - 0) ltac:(lia)) as [b Hb]. rewrite Hb, Hd.
  apply dt_add_spec in Hb; [|exact Ew]. destruct Hb as [Eb [Sb _]]. apply dt_add_some. lia.
Qed.

Lemma drop_us dt : t_us (dt_time dt) = 0 ->
  DateTime (dt_date dt) (Tod (t_hour (dt_time dt)) (t_min (dt_time dt)) (t_sec (dt_time dt)) 0) (dt_tz dt) = dt.
Proof. destruct dt as [d [h m s us] z]. cbn. intros ->. reflexivity. Qed.

Lemma datetime_rt {F} E p mn mx utc desc recon dt :
  let k : kindP val F := KDateTime mn mx utc in
  (forall anc unser ser_v, process_scalar E p k unser ser_v Inbound false anc (VDateTime dt) = Ok (VDateTime dt)) ->
  p_preprocessor p = None -> p_constant p = VNone ->
  (exists z, dt_tz dt = Some z /\ tz_is z (if utc then TzUTC else TzLocal) = true) ->
  faithful E desc recon k (VDateTime dt) ->
  exists s, (forall anc, process_scalar E p k (unserialize_value E recon k) (serialize_value E desc k) Outbound true anc (VDateTime dt) = Ok (VStr s))
    /\ forall anc, process_scalar E p k (unserialize_value E recon k) (serialize_value E desc k) Inbound true anc (VStr s) = Ok (VDateTime dt).
Proof.
  intros k. subst k. intros Hrun Hp Hc [z [Hz Htz]] [Hf|Hf]; [discriminate|].
  destruct Hf as [dt0 [i [u [[= <-] [He [Hus [Hdst [Hi [Hu [Hw Hpad]]]]]]]]]].
  apply instant_spec in Hi; [|exact He]. apply wall_clock_spec in Hw; [|exact Hu].
  pose proof (dt_secs_range _ Hu) as Hur. assert (Huu : 0 <= t_us (dt_time u) <= 999999) by apply Hu.
  apply tz_is_eq in Htz. subst z.
  destruct utc.
  - (* UTC *)
    assert (Hsame : dt_secs dt = dt_secs u).
    { revert Hi. unfold inst, zone_of. rewrite Hz. cbn [utcoffset]. lia. }
    assert (Hpad' : e_pad E = true \/ 1000 <= d_year (dt_date dt)).
    { destruct Hpad as [|Hpad]; [auto|]. right.
      assert (Heq : with_tz dt None = with_tz u None); [|injection Heq as Hd _; rewrite Hd; exact Hpad].
      apply dt_unique; [exact He|exact Hu|exact Hsame| |reflexivity].
      revert Hi Hw. unfold inst, zone_of. rewrite Hz. cbn [utcoffset with_tz dt_time]. lia. }
    exists (datetime_text (e_pad E) dt). split.
    + intros anc. eapply scalar_outbound; [apply Hrun|discriminate|]. cbn. rewrite Hz. reflexivity.
    + intros anc. eapply scalar_inbound; [apply Hrun|discriminate|discriminate|reflexivity|].
      cbn [unserialize_value]. rewrite parse_datetime_text by assumption. cbn [or_invalid]. rewrite <- Hz, drop_us by exact Hus. reflexivity.
  - (* local *)
    destruct Hdst as [|Hdst]; [discriminate|].
    assert (Ho : utcoffset (e_local E) TzLocal (dt_secs dt) = lt_std (e_local E)).
    { cbn. rewrite Hdst. destruct (lt_isdst _ _); reflexivity. }
    assert (Hsecs : dt_secs u = dt_secs dt - lt_std (e_local E) /\ t_us (dt_time u) = 0).
    { revert Hi. unfold inst, zone_of. rewrite Hz, Ho. lia. }
    destruct (to_utc_some (e_local E) dt TzLocal He ltac:(rewrite Ho; lia)) as [w Hwz].
    pose proof Hwz as Hws. apply to_utc_spec in Hws; [|exact He]. destruct Hws as [Ew [Sw [Uw Zw]]]. rewrite Ho in Sw.
    assert (Hpad' : e_pad E = true \/ 1000 <= d_year (dt_date w)).
    { destruct Hpad as [|Hpad]; [auto|]. right.
      assert (Heq : with_tz w None = with_tz u None); [|injection Heq as Hd _; rewrite Hd; exact Hpad].
      apply dt_unique; [exact Ew|exact Hu| | |reflexivity].
      - change (dt_secs w = dt_secs u). lia.
      - change (t_us (dt_time w) = t_us (dt_time u)). lia. }
    exists (datetime_text (e_pad E) w). split.
    + intros anc. eapply scalar_outbound; [apply Hrun|discriminate|]. cbn. rewrite Hz. cbn [tz_is]. rewrite Hwz. reflexivity.
    + intros anc.
      assert (Hback : astimezone (e_local E) w TzUTC TzLocal = Some dt).
      { pose proof (dt_secs_range _ He).
        destruct (to_local_some (e_local E) w Hdst Ew ltac:(lia)) as [r Hr]. rewrite Hr. f_equal.
        apply to_local_spec in Hr; [|exact Hdst|exact Ew]. destruct Hr as [Er [Sr [Ur Zr]]]. cbn [utcoffset] in Sr.
        apply dt_unique; [exact Er|exact He|lia|lia|congruence]. }
      specialize (Hrun anc (unserialize_value (F := F) E recon (KDateTime mn mx false)) (serialize_value (F := F) E desc (KDateTime mn mx false))).
      unfold process_scalar in Hrun |- *. cbn [kind_ignored phase_eqb andb] in *.
      rewrite is_null_some in Hrun by discriminate. rewrite is_null_some by discriminate. cbn [bind] in *.
      cbn [unserialize_value]. rewrite parse_datetime_text by assumption. cbn [or_invalid bind].
      rewrite <- Zw, drop_us by lia.
      unfold preprocess in *. rewrite Hp in *. cbn [bind] in *. rewrite Hc in *. cbn [is_none bind negb] in *.
      cbn [validate_value] in *. unfold dt_normalize in *. rewrite Hz in Hrun. rewrite Zw. cbn [tz_is] in *. rewrite Hback.
      exact Hrun.
Qed.

Lemma veq_written {F} E desc recon (k : kindP val F) v : written k = true -> scalar_conf E k v -> faithful E desc recon k v ->
  (forall d, v = VDec d -> dec_is_nan d = false) -> veq (e_local E) v v = true.
Proof.
  intros Hk Hc [-> | Hf] Hn; [reflexivity|]. destruct k; try discriminate Hk; cbn in Hc.
  - destruct Hc as [b [-> _]]. cbn. apply str_eqb_refl.
  - destruct Hf as [d [-> _]]. cbn. unfold date_eqb. rewrite !Z.eqb_refl. reflexivity.
  - destruct Hc as [dt [z [-> [Hz _]]]]. cbn. unfold dt_eqb. rewrite Hz.
    assert (Hw : wall_eqb dt dt = true) by (unfold wall_eqb, date_eqb, tod_eqb; rewrite !Z.eqb_refl; reflexivity).
    rewrite Hw, !Z.eqb_refl. destruct (tz_is z z); reflexivity.
  - destruct Hc as [d [-> _]]. specialize (Hn d eq_refl). cbn. destruct d; try discriminate; cbn.
    + apply Qeq_bool_iff. reflexivity.
    + destruct neg; reflexivity.
  - destruct Hc as [t [-> _]]. cbn. unfold tod_eqb. rewrite !Z.eqb_refl. reflexivity.
Qed.

(** What the serialized form looks like. *)
Definition form {F} (k : kindP val F) (v w : val) : Prop :=
  (unchanged k = true -> w = v)
  /\ (written k = true -> (v = VNone /\ w = VNone) \/ v <> VNone /\ exists s, w = VStr s \/ w = VBytes s).

Definition simple {F} (k : kindP val F) : bool :=
  match k with
  | KError | KSurrogate _ | KUnion _ | KSequence _ _ _ _ | KMap _ _ _ | KTuple _ | KStructure _ _ _ => false
  | _ => true
  end.

Lemma scalar_rt {F} E desc recon p (k : kindP val F) v :
  simple k = true ->
  p_preprocessor p = None -> (normalises k = true -> p_constant p = VNone) ->
  (forall anc unser ser_v, process_scalar E p k unser ser_v Inbound false anc v = Ok v) ->
  scalar_clause E p k v -> faithful E desc recon k v ->
  exists w, (forall anc, process_scalar E p k (unserialize_value E recon k) (serialize_value E desc k) Outbound true anc v = Ok w)
    /\ (forall anc, process_scalar E p k (unserialize_value E recon k) (serialize_value E desc k) Inbound true anc w = Ok v)
    /\ form k v w.
Proof.
  intros Hk Hp Hnc Hrun Hcl Hf.
  destruct Hcl as [[-> Hnn]|[Hv [Hconf _]]].
  { exists VNone. split; [|split]; [intros anc; rewrite scalar_null, Hnn; reflexivity..|]. split; [auto|]. intros _. left. auto. }
  destruct Hf as [->|Hf]; [contradiction|].
  assert (Hid : forall w, unchanged k = true -> w = v ->
            (forall anc, unserialize_value E recon k anc v = Ok v) -> serialize_value E desc k v = Ok v ->
    (forall anc, process_scalar E p k (unserialize_value E recon k) (serialize_value E desc k) Outbound true anc v = Ok w)
    /\ (forall anc, process_scalar E p k (unserialize_value E recon k) (serialize_value E desc k) Inbound true anc w = Ok v)
    /\ form k v w).
  { intros w Hun -> H1 H2. split; [|split].
    - intros anc. eapply scalar_outbound; eauto.
    - intros anc. apply scalar_inbound_same; auto.
    - split; [reflexivity|]. intros Hw. destruct k; discriminate. }
  assert (Hwr : forall w, kind_ignored k = None -> unchanged k = false -> (exists s, w = VStr s \/ w = VBytes s) ->
            (forall anc, unserialize_value E recon k anc w = Ok v) -> serialize_value E desc k v = Ok w ->
    (forall anc, process_scalar E p k (unserialize_value E recon k) (serialize_value E desc k) Outbound true anc v = Ok w)
    /\ (forall anc, process_scalar E p k (unserialize_value E recon k) (serialize_value E desc k) Inbound true anc w = Ok v)
    /\ form k v w).
  { intros w Hki Hun Hw H1 H2. split; [|split].
    - intros anc. eapply scalar_outbound; eauto.
    - intros anc. eapply scalar_inbound; eauto. destruct Hw as [s [-> | ->]]; discriminate.
    - split; [congruence|]. intros _. right. split; [exact Hv|exact Hw]. }
  destruct k; try discriminate Hk; try (exists v; apply Hid; [reflexivity..|reflexivity]); cbn in Hconf.
  - (* binary *) destruct Hconf as [b [-> _]]. exists (VBytes (b64_encode b)). apply Hwr; try reflexivity; [eauto|].
    intros anc. cbn. rewrite decode_encode by (apply Hf; reflexivity). reflexivity.
  - (* date *) destruct Hf as [d [-> [Hd Hpad]]]. exists (VStr (date_text (e_pad E) d)). apply Hwr; try reflexivity; [eauto|].
    intros anc. cbn [unserialize_value]. rewrite parse_date_text by assumption. reflexivity.
  - (* datetime *) destruct Hconf as [dt [z [-> [Hz [Htz _]]]]].
    destruct (datetime_rt (F := F) E p mn mx utc desc recon dt) as [s [H1 H2]]; eauto; [right; exact Hf|].
    exists (VStr s). split; [exact H1|]. split; [exact H2|]. split; [discriminate|]. intros _. right. eauto.
  - (* decimal *) destruct Hconf as [d [-> _]]. exists (VStr (dec_text d)). apply Hwr; try reflexivity; [eauto|].
    intros anc. cbn [unserialize_value to_dec]. rewrite parse_dec_text. reflexivity.
  - (* definition *) destruct Hf as [f [d [-> [Hd [Hdn Hrec]]]]]. exists d. split; [|split].
    + intros anc. eapply scalar_outbound; eauto.
    + intros anc. eapply scalar_inbound; eauto; try reflexivity. cbn [unserialize_value]. rewrite Hrec. reflexivity.
    + split; discriminate.
  - (* float *) destruct Hconf as [x [-> _]]. exists (VFloat x). apply Hid; reflexivity.
  - (* integer *) destruct Hconf as [x [-> _]]. exists (VInt x). apply Hid; reflexivity.
  - (* object *) destruct Hf as [s [Hi Ho]]. exists (VStr s). apply Hwr; try reflexivity; [eauto| |].
    + intros anc. cbn [unserialize_value]. rewrite Hi. reflexivity.
    + cbn [serialize_value]. destruct Ho as [-> | [Hns Ho]]; [reflexivity|].
      destruct v; try (rewrite Ho; reflexivity). exfalso. eapply Hns. reflexivity.
  - (* time *) destruct Hf as [t [-> [Ht Hus]]]. exists (VStr (tod_text t)). apply Hwr; try reflexivity; [eauto|].
    intros anc. cbn [unserialize_value]. rewrite parse_tod_text by assumption. cbn [or_invalid]. rewrite <- Hus. destruct t; reflexivity.
Qed.

(** ** Containers *)

Section Moves.
Variable E : env.
Notation L := (e_local E).

(** The subfield turns [x] into [y]. *)
Definition moves (c : child) (ph : phase) (x y : val) : Prop := forall anc, snd c ph true anc x = Ok y.

Lemma seq_loop_moves (c : child) ph anc i l l' :
  Forall2 (moves c ph) l l' -> seq_loop E c ph true anc i l = Ok (l', true).
Proof.
  intros H. revert i. induction H as [|x y l l' Hx Hl IH]; intros i; cbn [seq_loop]; [reflexivity|].
  rewrite (wrap_of_Ok _ _ _ y) by apply Hx. cbn [collect bind]. rewrite IH. reflexivity.
Qed.

Lemma seq_moves p (c : child) mn mx u ph anc l l' :
  p_preprocessor p = None ->
  at_least Z.le mn (Z.of_nat (length l)) -> at_most Z.le mx (Z.of_nat (length l)) ->
  Forall2 (moves c ph) l l' ->
  (u = true -> Forall (fun x => hashable x = true) l'
     /\ forall i j x y, (i < j)%nat -> nth_error l' i = Some x -> nth_error l' j = Some y -> veq L y x = false) ->
  process_sequence E p c mn mx u ph true anc (VList l) = Ok (VList l').
Proof.
  intros Hp H1 H2 Hl Hu. unfold process_sequence.
  rewrite is_null_some by discriminate. cbn [bind]. unfold pre_raw. rewrite Hp. cbn [bind py_iter].
  apply below_false in H1. apply above_false in H2. rewrite zlen_length, H1, H2.
  rewrite (seq_loop_moves c ph _ _ _ l') by assumption. cbn [bind fst snd negb].
  destruct u; [|reflexivity]. destruct (Hu eq_refl) as [Hh Hd].
  assert (Hh' : forallb hashable l' = true) by (apply forallb_forall; rewrite Forall_forall in Hh; exact Hh).
  apply has_dup_false in Hd. rewrite Hh', Hd. reflexivity.
Qed.

Lemma tuple_loop_moves (cs : list child) ph anc pre l l' :
  Forall2 (fun c xy => moves c ph (fst xy) (snd xy)) cs (combine l l') -> length l = length l' ->
  tuple_loop E cs ph true anc (length pre) (VTuple (pre ++ l)) = Ok (l', true).
Proof.
  revert cs pre l'. induction l as [|x l IH]; intros cs pre [|y l'] H Hlen; try discriminate Hlen; cbn [combine] in H.
  - inversion H; subst. reflexivity.
  - inversion H as [|c ? cs' ? Hx Hl]; subst. cbn [tuple_loop].
    cbn [py_index py_iter]. rewrite nth_error_app2 by lia. rewrite Nat.sub_diag. cbn [nth_error bind].
    rewrite (wrap_of_Ok _ _ _ y) by apply Hx. cbn [collect bind].
    specialize (IH cs' (pre ++ [x]) l' Hl ltac:(cbn in Hlen; lia)). rewrite app_length, <- app_assoc in IH. cbn [length app] in IH.
    rewrite Nat.add_1_r in IH. rewrite IH. reflexivity.
Qed.

Lemma tuple_moves p (cs : list child) ph anc l l' :
  p_preprocessor p = None -> length l = length cs -> length l = length l' ->
  Forall2 (fun c xy => moves c ph (fst xy) (snd xy)) cs (combine l l') ->
  process_tuple E p cs ph true anc (VTuple l) = Ok (VTuple l').
Proof.
  intros Hp Hlen Hlen' H. unfold process_tuple.
  rewrite is_null_some by discriminate. cbn [bind]. unfold pre_raw. rewrite Hp. cbn [bind py_iter].
  rewrite Hlen, Nat.eqb_refl.
  assert (Ht := tuple_loop_moves cs ph anc [] l l' H Hlen'). cbn [length app] in Ht. rewrite Ht. reflexivity.
Qed.

Definition key_moves (ck : option child) (ph : phase) (x y : val) : Prop :=
  match ck with Some c => moves c ph x y | None => x = y /\ exists s, x = VStr s end.

Lemma map_loop_moves (cv : child) (ck : option child) ph anc l l' acc :
  Forall2 (fun a b => key_moves ck ph (fst a) (fst b) /\ percent_s E (fst a) <> None
                      /\ percent_s E (fst b) <> None /\ hashable (fst b) = true /\ moves cv ph (snd a) (snd b)) l l' ->
  map_loop E cv ck ph true anc l acc true = Ok (set_all L l' acc, true).
Proof.
  intros H. rewrite map_loop_traverse.
  assert (Ht : traverse (map_step E cv ck ph true anc) l = Ok (map (fun kv => (kv, true)) l')).
  { apply traverse_ok. induction H as [|[k v] [k' v'] l l' Hx Hl IH]; cbn [map]; constructor; [|exact IH].
    cbn [fst snd] in Hx. destruct Hx as [Hk [Hp [Hp' [Hh Hv]]]]. unfold map_step. cbn [fst snd].
    rewrite !key_seg_percent. destruct (percent_s E k) as [s|] eqn:Hs; [|congruence]. cbn [bind].
    assert (Hkk : match ck with
              | Some c => match snd c ph true (anc ++ [key_segment s]) k with
                          | Raise (XErr _) => verr anc $"invalidkeys" | r => r end
              | None => match k with VStr _ => Ok k | _ => verr anc $"invalidkeys" end
              end = Ok k').
    { destruct ck as [c|]; cbn in Hk.
      - rewrite Hk. reflexivity.
      - destruct Hk as [<- [s' ->]]. reflexivity. }
    rewrite Hkk. cbn [bind]. rewrite key_seg_percent. destruct (percent_s E k') as [s'|]; [|congruence]. cbn [bind].
    rewrite (wrap_of_Ok _ _ _ v') by apply Hv. cbn [collect bind]. rewrite Hh. reflexivity. }
  rewrite Ht. cbn [bind]. rewrite map_map. cbn [fst]. rewrite map_id. f_equal. f_equal.
  cbn [andb]. apply forallb_forall. intros x Hx. apply in_map_iff in Hx. destruct Hx as [kv [<- _]]. reflexivity.
Qed.

Lemma map_moves p (cv : child) (ck : option child) req ph anc l l' :
  p_preprocessor p = None -> distinct L (map fst l') ->
  Forall2 (fun a b => key_moves ck ph (fst a) (fst b) /\ percent_s E (fst a) <> None
                      /\ percent_s E (fst b) <> None /\ hashable (fst b) = true /\ moves cv ph (snd a) (snd b)) l l' ->
  (forall r, req = Some r -> Forall (fun x => hashable x = true) r
     /\ forall x, In x r -> exists kv, In kv l' /\ veq L (fst kv) x = true) ->
  process_map E p cv ck req ph true anc (VDict false l) = Ok (VDict false l').
Proof.
  intros Hp Hd Hl Hreq. unfold process_map.
  rewrite is_null_some by discriminate. cbn [bind as_dict]. unfold pre_raw. rewrite Hp. cbn [bind as_dict].
  rewrite (map_loop_moves cv ck ph _ _ l') by assumption. cbn [bind fst snd].
  rewrite set_all_new by exact Hd. cbn [app].
  destruct req as [r|]; cbn [bind fst snd]; [|reflexivity]. destruct (Hreq r eq_refl) as [Hh Hr].
  rewrite map_required_complete; [reflexivity|assumption..].
Qed.

Lemma sget_Forall2 R k (l l' : list (val * val)) :
  Forall2 (fun a b : val * val => fst a = fst b /\ R (fst a) (snd a) (snd b)) l l' ->
  match sget k l, sget k l' with
  | Some y, Some y' => R (VStr k) y y'
  | None, None => True
  | _, _ => False
  end.
Proof.
  intros H. induction H as [|[a y] [b y'] l l' [Hk Hr] Hl IH]; cbn [sget]; [exact I|].
  cbn [fst snd] in *. subst b. destruct a; try exact IH. destruct (str_eqb_spec k s) as [<-|]; [exact Hr|exact IH].
Qed.

Lemma struct_run_moves (defn : list (str * child)) strict ko identity ph anc l l' :
  NoDup (map fst defn) ->
  match ko with Some o => NoDup o /\ incl o (map fst defn) | None => True end ->
  (ko <> None -> identity = VNone) ->
  let order := match ko with Some (k :: ks) => k :: ks | _ => map fst defn end in
  sublist (map fst l) (map VStr order) ->
  Forall2 (fun a b => fst a = fst b
    /\ (fun key x y => forall k c, key = VStr k -> In (k, c) defn ->
          (exists q, fparams E (fst c) = Some q /\ p_ignore_null q = false) /\ moves c ph x y) (fst a) (snd a) (snd b)) l l' ->
  (forall k c, In k order -> In (k, c) defn -> ~ In (VStr k) (map fst l) ->
     exists q, fparams E (fst c) = Some q /\ p_required q = false /\ p_default q = VNone) ->
  struct_run E defn strict ko identity false ph true anc l = Ok (VDict (has_order ko) l').
Proof.
  intros Hnd Hko Hid order Hsub Hent Habs. unfold struct_run.
  assert (Ho : match ko with Some (o :: os) => poly_order (o :: os) identity | _ => Ok (map fst defn) end = Ok order).
  { unfold order. destruct ko as [[|o os]|]; try reflexivity. rewrite Hid by discriminate. reflexivity. }
  rewrite Ho. cbn [bind].
  assert (Hndo : NoDup order /\ incl order (map fst defn)).
  { unfold order. destruct ko as [[|o os]|]; [split; [exact Hnd|apply incl_refl]|exact Hko|split; [exact Hnd|apply incl_refl]]. }
  destruct Hndo as [Hndo Hincl].
  assert (Hfst : map fst l = map fst l').
  { clear - Hent. induction Hent as [|a b l l' [H _] _ IH]; cbn [map]; [reflexivity|]. f_equal; assumption. }
  rewrite struct_loop_traverse; [|exact Hndo|intros; apply kmem_sget|reflexivity].
  destruct (kept_rebuild (sstep E defn l false ph true anc) order l' Hndo ltac:(rewrite <- Hfst; exact Hsub)) as [rs [H1 [H2 H3]]].
  - intros k Hk. unfold sstep.
    destruct (aget k defn) as [c|] eqn:Hg.
    2:{ exfalso. apply Hincl in Hk. apply in_map_iff in Hk. destruct Hk as [[k' c] [<- Hin]].
        apply aget_NoDup_In in Hin; [|exact Hnd]. cbn in Hg. congruence. }
    assert (Hin : In (k, c) defn) by (apply aget_In, Hg).
    assert (Hrel := sget_Forall2 _ k _ _ Hent). cbv beta in Hrel.
    destruct (sget k l) as [y|] eqn:Hs, (sget k l') as [y'|] eqn:Hs'; try contradiction; cbn [decide bind option_map].
    + destruct (Hrel k c eq_refl Hin) as [[q [Hq Hig]] Hm]. rewrite Hq, Hig. cbn [andb].
      rewrite (wrap_of_Ok _ _ _ y') by apply Hm. reflexivity.
    + assert (Hn : ~ In (VStr k) (map fst l)).
      { intros Hx. apply in_map_iff in Hx. destruct Hx as [[k' v'] [Hkk Hx]]. cbn in Hkk. subst k'.
        exact (proj1 (sget_None k l) Hs v' Hx). }
      destruct (Habs k c Hk Hin Hn) as [q [Hq [Hr Hdn]]]. rewrite Hq, Hr, Hdn. cbn [is_none negb].
      rewrite andb_false_r. reflexivity.
  - rewrite H1. cbn [bind app]. rewrite H2, H3. cbn [andb].
    assert (Hnames : fold_left (fun ns k => kdel k ns) order (map fst l) = []).
    { destruct (fold_left _ order _) as [|x xs] eqn:Hx; [reflexivity|exfalso].
      assert (Hin : In x (fold_left (fun ns k => kdel k ns) order (map fst l))) by (rewrite Hx; left; reflexivity).
      apply kdel_all in Hin. destruct Hin as [Hin Hne]. eapply sublist_In in Hin; [|exact Hsub].
      apply in_map_iff in Hin. destruct Hin as [k [<- Hk]]. exact (Hne k Hk eq_refl). }
    rewrite Hnames. cbn. rewrite orb_true_r. destruct strict; reflexivity.
Qed.

End Moves.

(** ** Distinct values have distinct serialized forms *)

Definition textual (w : val) : Prop := w = VNone \/ exists s, w = VStr s \/ w = VBytes s.

Lemma textual_eq L w w' : textual w -> textual w' -> veq L w w' = true -> w = w'.
Proof.
  intros [-> | [s [-> | ->]]] [-> | [s' [-> | ->]]]; cbn; try discriminate; try reflexivity;
    intros H; apply str_eqb_eq in H; congruence.
Qed.

Lemma textual_hashable w : textual w -> hashable w = true.
Proof. intros [-> | [s [-> | ->]]]; reflexivity. Qed.

Lemma textual_percent E w : textual w -> percent_s E w <> None.
Proof. intros [-> | [s [-> | ->]]]; discriminate. Qed.

(** [inj l l']: the values of [l] are recovered from those of [l'], which are texts. *)
Definition recovered L (l l' : list val) : Prop :=
  Forall2 (fun v w => textual w /\ veq L v v = true) l l'
  /\ forall i j v v' w, nth_error l i = Some v -> nth_error l' i = Some w ->
       nth_error l j = Some v' -> nth_error l' j = Some w -> v = v'.

Lemma Forall2_nth {A B} (R : A -> B -> Prop) l l' i b : Forall2 R l l' -> nth_error l' i = Some b ->
  exists a, nth_error l i = Some a /\ R a b.
Proof.
  intros H. revert i. induction H as [|x y l l' Hx Hl IH]; intros [|i] Hi; try discriminate Hi; cbn in *; eauto.
  injection Hi as <-. eauto.
Qed.

Lemma recovered_nodup L l l' : recovered L l l' ->
  (forall i j x y, (i < j)%nat -> nth_error l i = Some x -> nth_error l j = Some y -> veq L y x = false) ->
  forall i j x y, (i < j)%nat -> nth_error l' i = Some x -> nth_error l' j = Some y -> veq L y x = false.
Proof.
  intros [Hf Hinj] Hd i j x y Hlt Hx Hy. destruct (veq L y x) eqn:Hq; [|reflexivity]. exfalso.
  destruct (Forall2_nth _ _ _ _ _ Hf Hx) as [a [Ha [Ht Hr]]]. destruct (Forall2_nth _ _ _ _ _ Hf Hy) as [b [Hb [Ht' Hr']]].
  apply textual_eq in Hq; [|assumption..]. subst y.
  assert (b = a) by (eapply Hinj; eauto). subst b. specialize (Hd _ _ _ _ Hlt Ha Hb). congruence.
Qed.

Lemma distinct_nth L l : distinct L l <->
  forall i j x y, (i < j)%nat -> nth_error l i = Some x -> nth_error l j = Some y -> veq L x y = false.
Proof.
  induction l as [|a l IH]; cbn [distinct].
  - split; [intros _ [|i] j x y _ H; discriminate|trivial].
  - rewrite IH. split.
    + intros [H1 H2] [|i] [|j] x y Hlt Hx Hy; cbn in Hx, Hy; try lia.
      * injection Hx as <-. apply H1. eapply nth_error_In, Hy.
      * eapply (H2 i j); eauto. lia.
    + intros H. split.
      * intros k' Hk'. apply In_nth_error in Hk'. destruct Hk' as [j Hj]. apply (H O (S j)); auto. lia.
      * intros i j x y Hlt Hx Hy. apply (H (S i) (S j)); auto. lia.
Qed.

Lemma recovered_distinct L l l' : recovered L l l' -> distinct L l -> distinct L l'.
Proof.
  intros [Hf Hinj] Hd. rewrite distinct_nth in *. intros i j x y Hlt Hx Hy.
  destruct (veq L x y) eqn:Hq; [|reflexivity]. exfalso.
  destruct (Forall2_nth _ _ _ _ _ Hf Hx) as [a [Ha [Ht Hr]]]. destruct (Forall2_nth _ _ _ _ _ Hf Hy) as [b [Hb [Ht' Hr']]].
  apply textual_eq in Hq; [|assumption..]. subst y.
  assert (b = a) by (eapply Hinj; eauto). subst b. specialize (Hd _ _ _ _ Hlt Ha Hb). congruence.
Qed.

Lemma Forall_exists {A B} (R : A -> B -> Prop) l : (forall a, In a l -> exists b, R a b) -> exists l', Forall2 R l l'.
Proof.
  induction l as [|a l IH]; intros H; [exists []; constructor|].
  destruct (H a (or_introl eq_refl)) as [b Hb]. destruct IH as [l' Hl']; [intros x Hx; apply H; right; exact Hx|].
  exists (b :: l'). constructor; assumption.
Qed.

Lemma Forall2_flip' {A B} (R : A -> B -> Prop) l l' : Forall2 R l l' -> Forall2 (fun b a => R a b) l' l.
Proof. intros H. induction H; constructor; auto. Qed.

Lemma Forall2_eq {A} (l l' : list A) : Forall2 (fun a b => b = a) l l' -> l' = l.
Proof. intros H. induction H; congruence. Qed.

Lemma Forall2_In {A B} (R S : A -> B -> Prop) l l' : Forall2 R l l' ->
  (forall a b, In a l -> In b l' -> R a b -> S a b) -> Forall2 S l l'.
Proof.
  intros H. induction H as [|a b l l' Hab Hl IH]; intros HS; constructor.
  - apply HS; [left; reflexivity..|exact Hab].
  - apply IH. intros x y Hx Hy. apply HS; right; assumption.
Qed.

(** ** C34 *)

Lemma meets_basic E p (k : kind) v k' x : unchanged k || written k = true -> meets E (Fld p k) v k' x -> k' = k /\ x = v.
Proof. intros Hk H. inversion H; subst; try discriminate Hk. auto. Qed.

Lemma conf_written E n p (k : kind) v : written k = true ->
  conforms E n (Fld p k) v -> v <> VNone -> scalar_conf E k v.
Proof.
  intros Hk H Hv. rewrite conforms_Fld in H. destruct k; try discriminate Hk; cbn [kmap] in H;
    destruct H as [[-> _]|[_ [H _]]]; try contradiction; exact H.
Qed.

Definition trips E desc recon n (g : field) (v w : val) : Prop :=
  (forall anc, process_gen E desc recon n g false Outbound true anc v = Ok w)
  /\ (forall anc, process_gen E desc recon n g false Inbound true anc w = Ok v)
  /\ (forall p k, g = Fld p k -> form k v w).

Lemma trips_recovered E desc recon n N p (k : kind) l l' :
  written k = true -> Forall2 (trips E desc recon N (Fld p k)) l l' ->
  (forall v, In v l -> conforms E n (Fld p k) v /\ faithful E desc recon k v /\ forall d, v = VDec d -> dec_is_nan d = false) ->
  recovered (e_local E) l l'.
Proof.
  intros Hk H Hl. split.
  - clear - Hk H Hl. induction H as [|v w l l' Hv Hl' IH]; constructor; [|apply IH; intros; apply Hl; right; assumption].
    destruct (Hl v (or_introl eq_refl)) as [Hc [Hf Hn]]. destruct Hv as [_ [_ Hform]].
    destruct (Hform p k eq_refl) as [_ Hw]. destruct (Hw Hk) as [[-> ->]|[Hvn [s Hs]]].
    + split; [left; reflexivity|reflexivity].
    + split; [right; exists s; exact Hs|]. apply (veq_written E desc recon k); auto. eapply conf_written; eauto.
  - intros i j v v' w Hi Hi' Hj Hj'.
    destruct (Forall2_nth _ _ _ _ _ H Hi') as [a [Ha [_ [Hin _]]]]. destruct (Forall2_nth _ _ _ _ _ H Hj') as [b [Hb [_ [Hin' _]]]].
    specialize (Hin []). specialize (Hin' []). congruence.
Qed.

Lemma trips_unchanged E desc recon n p (k : kind) l l' :
  unchanged k = true -> Forall2 (trips E desc recon n (Fld p k)) l l' -> l' = l.
Proof.
  intros Hk H. apply Forall2_eq. eapply Forall2_impl; [|exact H]. intros v w [_ [_ Hf]]. apply (Hf p k eq_refl), Hk.
Qed.

(** The entries of a structure. *)
Lemma struct_trips E desc recon n N (d : list (str * field)) ko strict l path idn :
  NoDup (map fst d) -> match ko with Some o => NoDup o /\ incl o (map fst d) | None => True end ->
  (ko <> None -> idn = VNone) ->
  (forall kf, In kf d -> (forall q, fparams E (snd kf) = Some q -> p_ignore_null q = false)
                         /\ (fparams E (snd kf) = None -> forall v, ~ conforms E n (snd kf) v)) ->
  struct_conf E (map (fun kf => (fst kf, (snd kf, conforms E n (snd kf)))) d) ko l ->
  forall l',
  Forall2 (fun a b => fst a = fst b
    /\ forall name f, fst a = VStr name -> In (name, f) d -> trips E desc recon N f (snd a) (snd b)) l l' ->
  let defn := map (fun kf => (fst kf, (snd kf, process_gen E desc recon N (snd kf) false))) d in
  struct_run E defn strict ko idn false Outbound true path l = Ok (VDict (has_order ko) l')
  /\ struct_run E defn strict ko idn false Inbound true path l' = Ok (VDict (has_order ko) l).
Proof.
  intros Hnd Hko Hid Hd [Hsub [Hent Habs]] l' Hl defn.
  assert (Hk1 : map fst defn = map fst d) by (unfold defn; rewrite map_map; reflexivity).
  assert (Hfst : map fst l = map fst l').
  { clear - Hl. induction Hl as [|a b l l' [H _] _ IH]; cbn [map]; [reflexivity|]. f_equal; assumption. }
  rewrite map_map in Hsub, Habs. cbn [fst] in Hsub, Habs.
  assert (Hin : forall k c, In (k, c) defn -> exists f, In (k, f) d /\ c = (f, process_gen E desc recon N f false)).
  { intros k c Hx. apply in_map_iff in Hx. destruct Hx as [[k' f] [[= <- <-] Hx]]. eauto. }
  assert (Hparams : forall k f y, In (VStr k, y) l -> In (k, f) d -> exists q, fparams E f = Some q /\ p_ignore_null q = false).
  { intros k f y Hy Hf. destruct (Hd _ Hf) as [H1 H2]. cbn [snd] in H1, H2. destruct (fparams E f) as [q|]; [eauto|].
    destruct (Hent k y Hy) as [c [Hc Hcy]]. exfalso. apply in_map_iff in Hc. destruct Hc as [[k' f'] [[= <- <-] Hf']].
    assert (f' = f) by (apply aget_NoDup_In in Hf; [|exact Hnd]; apply aget_NoDup_In in Hf'; [|exact Hnd]; congruence).
    subst f'. exact (H2 eq_refl y Hcy). }
  assert (Habs' : forall k c, In k match ko with Some (k :: ks) => k :: ks | _ => map fst defn end ->
            In (k, c) defn -> ~ In (VStr k) (map fst l) ->
            exists q, fparams E (fst c) = Some q /\ p_required q = false /\ p_default q = VNone).
  { intros k c Hk Hc Hn. destruct (Hin k c Hc) as [f [Hf ->]]. rewrite Hk1 in Hk.
    destruct (Habs k (f, conforms E n f) Hk) as [q [Hq Hor]]; [|exact Hn|].
    - apply in_map_iff. exists (k, f). auto.
    - cbn [fst] in Hq |- *. apply defined_fparams in Hq. exists q. split; [exact Hq|].
      destruct Hor as [Hx|Hor]; [|exact Hor]. destruct (Hd _ Hf) as [H1 _]. cbn [snd] in H1. rewrite (H1 q Hq) in Hx. discriminate. }
  change (map (fun x : str * field => fst x) d) with (map fst d) in Hsub. rewrite <- Hk1 in Hsub, Hnd, Hko.
  split; (apply struct_run_moves; [exact Hnd|exact Hko|exact Hid| | |]).
  - exact Hsub.
  - eapply Forall2_In; [exact Hl|]. cbv beta. intros [a y] [b y'] Ha _ [Hab Ht]. cbn [fst snd] in *. split; [exact Hab|].
    intros k c -> Hc. destruct (Hin k c Hc) as [f [Hf ->]]. cbn [fst]. split; [eapply Hparams; eauto|].
    exact (proj1 (Ht k f eq_refl Hf)).
  - exact Habs'.
  - rewrite <- Hfst. exact Hsub.
  - apply Forall2_flip' in Hl. eapply Forall2_In; [exact Hl|]. cbv beta. intros [a y] [b y'] _ Ha [Hab Ht]. cbn [fst snd] in *.
    split; [congruence|]. subst b. intros k c -> Hc. destruct (Hin k c Hc) as [f [Hf ->]]. cbn [fst]. split; [eapply Hparams; eauto|].
    exact (proj1 (proj2 (Ht k f eq_refl Hf))).
  - rewrite <- Hfst. exact Habs'.
Qed.

(** ** Unions *)

Lemma read_refused E desc recon n p k anc w :
  p_preprocessor p = None -> p_constant p = VNone -> ~ may_nullify (Fld p k) -> w <> VNone ->
  match k with KEnumeration _ _ => decisive k | _ => True end -> ~ read_type E k w ->
  by_type (process_gen E desc recon n (Fld p k) false Inbound true anc w).
Proof.
  intros Hp Hc Hm Hv Hk Ht.
  assert (He : forall l ig, k = KEnumeration l ig ->
            by_type (process_gen E desc recon n (Fld p k) false Inbound true anc w)).
  { intros l ig ->. destruct (decided E desc recon n p _ [] w Hp Hc Hv Hk) as [Hok|[_ [_ Hi]]].
    - exfalso. apply Ht. eapply decided_conforms in Hok; [|exact Hp|exact Hk]. apply conforms_type in Hok; [exact Hok|exact Hv].
    - destruct ig; [destruct Hk|exact (Hi anc)]. }
  revert He. rewrite process_Fld. unfold process_body.
  set (path := match anc with [] => _ | _ => _ end). clearbody path. unfold by_type. intros He.
  destruct k; cbn [kmap] in He |- *; try (exact (He _ _ eq_refl)); clear He; try (exfalso; apply Ht; exact I).
  all: try (unfold process_scalar, preprocess; rewrite is_null_some by exact Hv; rewrite Hp, Hc;
            cbn [bind andb is_none negb phase_eqb unserialize_value validate_value]).
  all: try (destruct v; try (eexists; split; reflexivity); exfalso; apply Ht; cbn; eauto; fail).
  all: try (destruct w; try (eexists; split; reflexivity); exfalso; apply Ht; cbn; eauto; fail).
  - destruct extended; cbn [bind]; destruct w; try (eexists; split; reflexivity); exfalso; apply Ht; cbn; eauto.
  - unfold process_map. rewrite is_null_some by exact Hv. cbn [bind].
    destruct w; try (eexists; split; reflexivity); exfalso; apply Ht; cbn; discriminate.
  - unfold process_sequence. rewrite is_null_some by exact Hv. cbn [bind].
    destruct w; try (eexists; split; reflexivity); exfalso; apply Ht; cbn; eauto.
  - unfold process_structure. rewrite is_null_some by exact Hv. cbn [bind].
    destruct w; try (eexists; split; reflexivity); exfalso; apply Ht; cbn; discriminate.
  - unfold process_tuple. rewrite is_null_some by exact Hv. cbn [bind].
    destruct w; try (eexists; split; reflexivity); exfalso; apply Ht; cbn; eauto.
Qed.

Lemma wire_typed E desc recon n p k anc v w :
  p_preprocessor p = None -> ~ may_nullify (Fld p k) -> v <> VNone ->
  process_gen E desc recon n (Fld p k) false Outbound true anc v = Ok w -> wire_type E k w.
Proof.
  intros Hp Hm Hv H. rewrite process_Fld in H. unfold process_body in H.
  set (path := match anc with [] => _ | _ => _ end) in H. clearbody path.
  assert (Hscal : is_structural k = false -> forall unser ser_v,
            process_scalar E p k unser ser_v Outbound true path v = Ok w ->
            exists y, scalar_conf E k y /\ ser_v y = Ok w).
  { intros Hs unser ser_v Hx. unfold process_scalar in Hx. apply bind_Ok in Hx. destruct Hx as [nul [Hn Hx]].
    assert (Hi : kind_ignored k = None).
    { destruct (kind_ignored k) eqn:Hi; [|reflexivity]. exfalso. apply Hm. destruct k; try discriminate Hi. cbn in Hi |- *. congruence. }
    rewrite Hi, is_null_some in Hn by exact Hv. injection Hn as <-.
    apply bind_Ok in Hx. destruct Hx as [v1 [_ Hx]]. apply bind_Ok in Hx. destruct Hx as [v2 [_ Hx]].
    apply bind_Ok in Hx. destruct Hx as [c [_ Hx]]. destruct c; cbn [negb] in Hx; [|destruct k; discriminate].
    apply bind_Ok in Hx. destruct Hx as [v3 [Hv3 Hx]]. exists v3.
    split; [exact (proj1 (validate_sound E k path v2 v3 Hs Hv3))|].
    cbn [andb phase_eqb] in Hx. destruct (ser_v v3) as [|[|[]]]; try discriminate; exact Hx. }
  destruct k; cbn [kmap] in H; cbn [wire_type]; try exact I.
  all: try (match type of H with process_scalar _ _ _ ?un ?sv _ _ _ _ = _ =>
              destruct (Hscal eq_refl un sv H) as [y [Hx Hy]] end; cbn [scalar_conf] in Hx).
  all: try (match type of Hx with exists _, _ /\ _ => destruct Hx as [x [-> _]] end; injection Hy as <-; eauto; fail).
  - destruct Hx as [b ->]. injection Hy as <-. eauto.
  - destruct Hx as [[d [-> _]]|[[dt ->] _]]; injection Hy as <-; eauto.
  - destruct Hx as [dt [z [-> _]]]. cbn [serialize_value] in Hy.
    destruct (tz_is _ _); [injection Hy as <-; eauto|]. destruct (astimezone _ _ _ _); [injection Hy as <-; eauto|discriminate].
  - injection Hy as <-. exact Hx.
  - unfold process_map in H. rewrite is_null_some in H by exact Hv. cbn [bind] in H.
    repeat first
    [ discriminate H | injection H as <-; eauto; fail
    | apply bind_Ok in H; destruct H as [? [_ H]]
    | match type of H with context [match ?x with _ => _ end] => destruct x; try discriminate H end ].
  - cbn [serialize_value] in Hy. destruct y; try (injection Hy as <-; eauto; fail);
      (destruct (e_identify E _); [injection Hy as <-; eauto|discriminate]).
  - unfold process_sequence in H. rewrite is_null_some in H by exact Hv. cbn [bind] in H.
    repeat first
    [ discriminate H | injection H as <-; eauto; fail
    | apply bind_Ok in H; destruct H as [? [_ H]]
    | match type of H with context [match ?x with _ => _ end] => destruct x; try discriminate H end ].
  - unfold process_structure in H. rewrite is_null_some in H by exact Hv. cbn [bind] in H.
    unfold struct_run in H.
    repeat first
    [ discriminate H | injection H as <-; eauto; fail
    | apply bind_Ok in H; destruct H as [? [_ H]]
    | match type of H with context [match ?x with _ => _ end] => destruct x; try discriminate H end ].
  - unfold process_tuple in H. rewrite is_null_some in H by exact Hv. cbn [bind] in H.
    repeat first
    [ discriminate H | injection H as <-; eauto; fail
    | apply bind_Ok in H; destruct H as [? [_ H]]
    | match type of H with context [match ?x with _ => _ end] => destruct x; try discriminate H end ].
Qed.

(** Classes that are alike native and serialized. *)
Definition alike (k : kind) : Prop :=
  match k with
  | KBoolean | KUUID | KToken None | KText None None None false | KEnumeration _ None => decisive k
  | _ => False
  end.

Lemma decisive_any E n N p k v : decisive k -> conforms E N (Fld p k) v -> conforms E n (Fld p k) v.
Proof. intros Hd. rewrite !conforms_Fld. destruct k; try contradiction Hd; cbn [kmap]; auto. Qed.

(** The first alternative that takes a value; earlier ones refuse it. *)
Lemma union_first E desc recon n N fs v :
  (forall p k, In (Fld p k) fs -> p_preprocessor p = None) ->
  Forall (fun f => ~ may_nullify f) fs -> ForallOrdPairs (lets_pass E) fs ->
  v <> VNone -> (exists g, In g fs /\ conforms E n g v) ->
  exists before g after, fs = before ++ g :: after /\ conforms E n g v
    /\ forall f, In f before -> exists p k, f = Fld p k /\ p_preprocessor p = None /\ p_constant p = VNone
         /\ ~ may_nullify f /\ (forall a, by_type (process_gen E desc recon N f false Outbound true a v))
         /\ (alike k -> forall a, by_type (process_gen E desc recon N f false Inbound true a v)).
Proof.
  intros Hpre Hmn Hlp Hv [g [Hg Hc]]. revert g Hg Hc.
  induction fs as [|f fs IH]; intros g Hg Hc; [destruct Hg|].
  inversion Hmn as [|? ? Hm1 Hm2]; subst. inversion Hlp as [|? ? Hl1 Hl2]; subst.
  assert (Hhead : conforms E n f v -> exists before g after, f :: fs = before ++ g :: after /\ conforms E n g v
    /\ forall f, In f before -> exists p k, f = Fld p k /\ p_preprocessor p = None /\ p_constant p = VNone
         /\ ~ may_nullify f /\ (forall a, by_type (process_gen E desc recon N f false Outbound true a v))
         /\ (alike k -> forall a, by_type (process_gen E desc recon N f false Inbound true a v))).
  { intros Hf. exists [], f, fs. split; [reflexivity|]. split; [exact Hf|]. intros ? []. }
  destruct Hg as [->|Hg]; [exact (Hhead Hc)|].
  rewrite Forall_forall in Hl1.
  assert (Hl := Hl1 g Hg). destruct f as [i|q k]; [contradiction|]. destruct g as [i|q' k']; [contradiction|].
  destruct Hl as [Hcn Hl]. assert (Hq := Hpre q k (or_introl eq_refl)).
  assert (Hdn : decisive k -> conforms E n (Fld q k) v
     \/ (forall a, by_type (process_gen E desc recon N (Fld q k) false Outbound true a v))
        /\ (alike k -> forall a, by_type (process_gen E desc recon N (Fld q k) false Inbound true a v))).
  { intros Hd. destruct (decided E desc recon N q k [] v Hq Hcn Hv Hd) as [Hok|[_ [Ho Hi]]].
    - left. eapply decisive_any; [exact Hd|]. eapply decided_conforms; eauto.
    - right. split; [exact Ho|]. intros Ha.
      destruct k; try contradiction Ha; cbn [alike] in Ha;
        repeat match type of Ha with context [match ?x with _ => _ end] => destruct x; try contradiction Ha end; exact Hi. }
  assert (Had : alike k -> decisive k).
  { intros Ha. destruct k; try contradiction Ha; cbn [alike] in Ha;
        repeat match type of Ha with context [match ?x with _ => _ end] => destruct x; try contradiction Ha end; exact Ha. }
  assert (Hor : conforms E n (Fld q k) v
     \/ (forall a, by_type (process_gen E desc recon N (Fld q k) false Outbound true a v))
        /\ (alike k -> forall a, by_type (process_gen E desc recon N (Fld q k) false Inbound true a v))).
  { destruct Hl as [Hd|[He Hdis]]; [exact (Hdn Hd)|].
    assert (Hty : native_type E k' v) by (eapply conforms_type; eauto).
    right. split; [intros a; apply refused_by_type; auto; intros Hin; eapply Hdis; eauto|].
    intros Ha. destruct (Hdn (Had Ha)) as [Hx|[_ Hx]]; [|exact (Hx Ha)].
    exfalso. eapply Hdis; [left; eapply conforms_type; eauto|exact Hty]. }
  destruct Hor as [Hf|[Ho Hi]]; [exact (Hhead Hf)|].
  destruct (IH (fun p k H => Hpre p k (or_intror H)) Hm2 Hl2 _ Hg Hc) as [before [g' [after [-> [Hg' Hb]]]]].
  exists (Fld q k :: before), g', after. split; [reflexivity|]. split; [exact Hg'|].
  intros f [<-|Hf]; [|exact (Hb f Hf)]. exists q, k. auto 10.
Qed.

Lemma union_skips E desc recon n before g after ph path v r :
  Forall (fun f => forall a, by_type (process_gen E desc recon n f false ph true a v)) before ->
  (forall a, process_gen E desc recon n g false ph true a v = Ok r) ->
  union_loop E (map (fun g => (g, process_gen E desc recon n g false)) (before ++ g :: after)) ph true path v = Ok r.
Proof.
  intros Hb Hg. induction Hb as [|f before Hf Hb IH]; cbn [app map union_loop fst snd].
  - rewrite Hg. reflexivity.
  - destruct (Hf path) as [e [-> He]]. cbn [wrap_undef]. rewrite He. exact IH.
Qed.

Lemma pairs_app {A} (R : A -> A -> Prop) before g after :
  ForallOrdPairs R (before ++ g :: after) -> forall f, In f before -> R f g.
Proof.
  induction before as [|x before IH]; intros H f Hf; [destruct Hf|]. inversion H as [|? ? Hx Hr]; subst.
  destruct Hf as [<-|Hf]; [|exact (IH Hr f Hf)]. rewrite Forall_forall in Hx. apply Hx, in_elt.
Qed.

Lemma trips_nonnull E desc recon n p k v w : v <> VNone -> trips E desc recon n (Fld p k) v w -> w <> VNone.
Proof.
  intros Hv Hw ->. destruct Hw as [_ [Hin _]]. specialize (Hin []).
  destruct (p_nonnull p) eqn:Hnn; [rewrite null_rejected in Hin by exact Hnn; discriminate|].
  rewrite null_accepted in Hin by exact Hnn. congruence.
Qed.

(** What a Surrogate field inside another field is given returns from its serialized form, if
    [more] placeholders may be followed. *)
Definition portable_beyond (E : env) (p : params) (k : kind) : Prop :=
  match k with KSurrogate _ => p_constant p = VNone | _ => portable E p k end.
Definition faithful_beyond E desc recon more (k : kind) (x : val) : Prop :=
  faithful E desc recon k x
  /\ forall valid, k = KSurrogate valid -> forall p N, p_preprocessor p = None -> p_constant p = VNone -> x <> VNone ->
       (more <= N)%nat -> exists w, trips E desc recon N (Fld p (KSurrogate valid)) x w.

Lemma round_trip_beyond E desc recon n more f v :
  throughout E well_keyed f -> throughout E (tidy E) f -> throughout E (portable_beyond E) f ->
  conforms E n f v -> (forall k x, meets E f v k x -> faithful_beyond E desc recon more k x) ->
  exists w, trips E desc recon (n + more) f v w.
Proof.
  intros [Hf Hu] [Ht Htu] [Hpo Hpou]. revert f Hf Ht Hpo v.
  induction n as [n IHn] using lt_wf_ind.
  intros f. induction f as [i|p k IH] using field_ind'; intros Hf Ht Hpo v H Hm.
  - rewrite conforms_FUndef in H. destruct (e_undef E i) as [[|q k]|] eqn:He; try contradiction.
    destruct n as [|m]; [contradiction|].
    destruct (IHn m ltac:(lia) (Fld q k) (Hu _ _ He) (Htu _ _ He) (Hpou _ _ He) v H) as [w [H1 [H2 _]]].
    { intros k' x Hx. apply Hm. econstructor; eauto. }
    exists w. split; [|split]; [intros anc; rewrite process_FUndef, He; cbn [Nat.add]; auto..|]. intros p' k' Hx. discriminate.
  - assert (Hsub : forall g, In g (subfields k) -> forall y, conforms E n g y -> (forall k x, meets E g y k x -> faithful_beyond E desc recon more k x) ->
              exists w, trips E desc recon (n + more) g y w).
    { intros g Hg y. apply (IH g Hg); eapply everywhere_sub; eauto. }
    assert (Htidy := everywhere_top _ _ _ Ht). assert (Hwk := everywhere_top _ _ _ Hf). assert (Hport := everywhere_top _ _ _ Hpo).
    assert (Hhere2 := Hm k v (meets_here E p k v)). assert (Hhere := proj1 Hhere2).
    destruct Htidy as [Hp [_ [Hnc Hkind]]]. rewrite conforms_Fld in H.
    assert (Hchild : forall d : list (str * field), (forall kf, In kf d -> In (snd kf) (subfields k)) ->
      forall kf, In kf d -> (forall q, fparams E (snd kf) = Some q -> p_ignore_null q = false)
                         /\ (fparams E (snd kf) = None -> forall v, ~ conforms E n (snd kf) v)).
    { intros d Hd kf Hkf. apply Hd in Hkf. assert (Hev := everywhere_sub _ _ _ _ Ht Hkf). split.
      - intros q Hq. destruct (snd kf) as [i|q' k'] eqn:Hs.
        + cbn in Hq. destruct (e_undef E i) as [[|q' k']|] eqn:He; try discriminate. injection Hq as <-.
          assert (Ht' := everywhere_top _ _ _ (Htu _ _ He)). apply Ht'.
        + injection Hq as <-. assert (Ht' := everywhere_top _ _ _ Hev). apply Ht'.
      - intros Hq w Hw. destruct (snd kf) as [i|q' k'] eqn:Hs; [|discriminate].
        rewrite conforms_FUndef in Hw. cbn in Hq. destruct (e_undef E i) as [[|q' k']|]; try contradiction. discriminate. }
    destruct (is_none v) eqn:Hnone.
    { (* null *)
      destruct v; try discriminate Hnone. exists VNone.
      assert (Hnn : p_nonnull p = false).
      { destruct H as [[_ Hnn]|[Hn H]]; [exact Hnn|]. exfalso. destruct k; cbn [kmap] in Hn; try (apply Hn; reflexivity).
        destruct (Hn eq_refl) as [c [Hc Hnl]]. apply in_map_iff in Hc. destruct Hc as [g [<- Hg]].
        destruct Hkind as [Hkind _]. rewrite Forall_forall in Hkind. exact (Hkind g Hg Hnl). }
      assert (Hnull : forall ph ser anc, process_gen E desc recon (n + more) (Fld p k) false ph ser anc VNone = Ok VNone).
      { intros ph ser anc. rewrite process_Fld. unfold process_body.
        destruct k; cbn [kmap]; try (rewrite scalar_null, Hnn; reflexivity).
        all: cbv [process_map process_sequence process_structure process_tuple process_union]; rewrite is_null_none, Hnn; reflexivity. }
      split; [|split]; [intros; apply Hnull..|]. intros p' k' [= <- <-]. split; [reflexivity|]. intros _. left. auto. }
    destruct H as [[-> _]|[Hv H]]; [discriminate|].
    assert (Hscal : simple k = true -> scalar_clause E p k v -> exists w, trips E desc recon (n + more) (Fld p k) v w).
    { intros Hk Hs.
      assert (Hrun : forall anc unser ser_v, process_scalar E p k unser ser_v Inbound false anc v = Ok v).
      { intros anc unser ser_v. apply scalar_complete; auto.
        - destruct k; try reflexivity; discriminate.
        - destruct k; try exact I; [exact Hkind|].
          split; [intros x Hx; apply Hkind; left; exact Hx|].
          intros l' -> x Hx. apply Hkind. right. exact Hx. }
      set (kc := kmap (fun g => (g, process_gen E desc recon (n + more) g false)) k : kindP val child).
      destruct (scalar_rt E desc recon p k v Hk Hp Hnc Hrun Hs Hhere) as [w [H1 [H2 H3]]]. exists w.
      split; [|split]; [| |intros p' k' [= <- <-]; exact H3].
      - intros anc. rewrite process_Fld. unfold process_body. destruct k; try discriminate Hk; exact (H1 _).
      - intros anc. rewrite process_Fld. unfold process_body. destruct k; try discriminate Hk; exact (H2 _). }
    destruct k; cbn [kmap] in H |- *.
    all: try (destruct Hport; fail).
    all: try (apply (proj2 Hhere2 _ eq_refl); [exact Hp|exact Hport|intros ->; discriminate|lia]).
    all: try (apply Hscal; [reflexivity|right; split; [intros ->; discriminate|exact H]]).
    + (* map *)
      destruct H as [l [-> [Hd [Hl Hreq]]]].
      assert (Hval : In value (subfields (KMap value key required_keys : kind))) by (destruct key; left; reflexivity).
      rewrite Forall_forall in Hl.
      (* the serialized entries *)
      assert (Hex : exists l', Forall2 (fun a b =>
                match key with Some g => trips E desc recon (n + more) g (fst a) (fst b) | None => fst a = fst b end
                /\ trips E desc recon (n + more) value (snd a) (snd b)) l l').
      { apply Forall_exists. intros [a b] Hab. destruct (Hl _ Hab) as [Hka [_ [_ Hvb]]]. cbn [fst snd] in Hka, Hvb.
        destruct (Hsub value Hval b Hvb) as [b' Hb'].
        { intros k x Hx. apply Hm. eapply meets_value; eauto. }
        destruct key as [g|]; cbn [option_map snd] in Hka.
        - destruct (Hsub g (or_intror (or_introl eq_refl)) a Hka) as [a' Ha'].
          { intros k x Hx. apply Hm. eapply meets_key; eauto. }
          exists (a', b'). auto.
        - exists (a, b'). auto. }
      destruct Hex as [l' Hl'].
      assert (Hkeys : Forall2 (fun a b => match key with Some g => trips E desc recon (n + more) g a b | None => a = b end) (map fst l) (map fst l')).
      { clear - Hl'. induction Hl' as [|a b l l' [H _] _ IH]; constructor; auto. }
      (* the keys *)
      assert (Hnew : distinct (e_local E) (map fst l')
                /\ (forall b, In b l' -> hashable (fst b) = true /\ percent_s E (fst b) <> None)
                /\ (required_keys = None \/ map fst l' = map fst l)).
      { assert (Hsame : map fst l' = map fst l -> distinct (e_local E) (map fst l')
                /\ (forall b, In b l' -> hashable (fst b) = true /\ percent_s E (fst b) <> None)
                /\ (required_keys = None \/ map fst l' = map fst l)).
        { intros Heq. split; [rewrite Heq; exact Hd|]. split; [|right; exact Heq].
          intros b Hb. apply (in_map fst) in Hb. rewrite Heq in Hb. apply in_map_iff in Hb. destruct Hb as [a [<- Ha]].
          destruct (Hl _ Ha) as [_ [H1 [H2 _]]]. auto. }
        destruct key as [g|].
        - destruct Hport as [q [kd [-> [Hun|[Hwr Hr]]]]].
          + apply Hsame. eapply trips_unchanged; eauto.
          + assert (Hrec : recovered (e_local E) (map fst l) (map fst l')).
            { apply (trips_recovered E desc recon n (n + more) q kd); [exact Hwr|exact Hkeys|].
              intros v' Hv'. apply in_map_iff in Hv'. destruct Hv' as [[a b] [<- Hab]]. cbn [fst].
              split; [exact (proj1 (Hl _ Hab))|]. split.
              - refine (proj1 (Hm _ _ _)). eapply meets_key; [exact Hab|constructor].
              - intros d ->. destruct Hhere as [Hx|Hx]; [discriminate|]. eapply Hx; eauto. }
            split; [eapply recovered_distinct; eauto|]. split; [|left; exact Hr].
            intros b Hb. destruct Hrec as [Hrec _]. apply (in_map fst) in Hb. apply In_nth_error in Hb. destruct Hb as [j Hj].
            destruct (Forall2_nth _ _ _ _ _ Hrec Hj) as [a [_ [Htx _]]].
            split; [apply textual_hashable, Htx|apply textual_percent, Htx].
        - apply Hsame. symmetry. clear - Hkeys. induction Hkeys; congruence. }
      destruct Hnew as [Hd' [Hb' Hor]].
      assert (Hreq' : forall (m : list (val * val)), map fst m = map fst l -> forall r, required_keys = Some r ->
                Forall (fun x => hashable x = true) r /\ forall x, In x r -> exists kv, In kv m /\ veq (e_local E) (fst kv) x = true).
      { intros m Hmm r ->. split; [exact Hkind|]. intros x Hx. destruct (Hreq r x eq_refl Hx) as [kv [Hkv Hq]].
        apply (in_map fst) in Hkv. rewrite <- Hmm in Hkv. apply in_map_iff in Hkv. destruct Hkv as [kv' [He Hkv']].
        exists kv'. rewrite He. auto. }
      exists (VDict false l'). split; [|split]; [| |intros p' k' [= <- <-]; split; discriminate].
      * intros anc. rewrite process_Fld. unfold process_body. cbn [kmap]. apply map_moves; [exact Hp|exact Hd'| |].
        -- eapply Forall2_In; [exact Hl'|]. cbv beta. intros a b Ha Hb [H1 H2]. destruct (Hl _ Ha) as [Hka [_ [Hpa _]]].
           destruct (Hb' b Hb) as [Hh Hpb]. split; [|split; [exact Hpa|split; [exact Hpb|split; [exact Hh|exact (proj1 H2)]]]].
           destruct key as [g|]; cbn [option_map key_moves]; [exact (proj1 H1)|]. split; [exact H1|exact Hka].
        -- destruct Hor as [->|Heq]; [discriminate|]. apply Hreq', Heq.
      * intros anc. rewrite process_Fld. unfold process_body. cbn [kmap]. apply map_moves; [exact Hp|exact Hd| |].
        -- apply Forall2_flip' in Hl'. eapply Forall2_In; [exact Hl'|]. cbv beta. intros b a Hb Ha [H1 H2].
           destruct (Hl _ Ha) as [Hka [Hh [Hpa _]]].
           destruct (Hb' b Hb) as [_ Hpb]. split; [|split; [exact Hpb|split; [exact Hpa|split; [exact Hh|exact (proj1 (proj2 H2))]]]].
           destruct key as [g|]; cbn [option_map key_moves]; [exact (proj1 (proj2 H1))|]. rewrite <- H1. split; [reflexivity|exact Hka].
        -- apply Hreq'. reflexivity.
    + (* sequence *)
      destruct H as [l [-> [H1 [H2 [Hl Hu']]]]]. cbn [snd] in Hl. rewrite Forall_forall in Hl.
      assert (Hex : exists l', Forall2 (trips E desc recon (n + more) item) l l').
      { apply Forall_exists. intros x Hx. apply (Hsub item); [left; reflexivity|exact (Hl x Hx)|].
        intros k' y Hy. apply Hm. eapply meets_item; eauto. }
      destruct Hex as [l' Hl'].
      assert (Hlen : length l = length l') by (eapply Forall2_length, Hl').
      assert (Huniq : unique = true -> Forall (fun x => hashable x = true) l'
                /\ forall i j x y, (i < j)%nat -> nth_error l' i = Some x -> nth_error l' j = Some y -> veq (e_local E) y x = false).
      { intros ->. destruct (Hu' eq_refl) as [Hh Hdd]. destruct Hport as [q [kd [-> Hk]]].
        destruct (unchanged kd) eqn:Hun.
        - assert (l' = l) by (eapply trips_unchanged; eauto). subst l'. auto.
        - cbn [orb] in Hk.
          assert (Hrec : recovered (e_local E) l l').
          { apply (trips_recovered E desc recon n (n + more) q kd); [exact Hk|exact Hl'|].
            intros v' Hv'. split; [apply Hl, Hv'|]. split.
            - refine (proj1 (Hm _ _ _)). eapply meets_item; [exact Hv'|constructor].
            - intros d ->. destruct Hhere as [Hx|Hx]; [discriminate|]. eapply Hx; eauto. }
          split; [|eapply recovered_nodup; eauto].
          rewrite Forall_forall. intros w Hw. apply In_nth_error in Hw. destruct Hw as [j Hj].
          destruct (Forall2_nth _ _ _ _ _ (proj1 Hrec) Hj) as [a [_ [Htx _]]]. apply textual_hashable, Htx. }
      exists (VList l'). split; [|split]; [| |intros p' k' [= <- <-]; split; discriminate].
      * intros anc. rewrite process_Fld. unfold process_body. cbn [kmap]. apply seq_moves; auto.
        eapply Forall2_impl; [|exact Hl']. intros a b Hab. exact (proj1 Hab).
      * intros anc. rewrite process_Fld. unfold process_body. cbn [kmap]. apply seq_moves; auto; try (rewrite <- Hlen; assumption).
        apply Forall2_flip' in Hl'. eapply Forall2_impl; [|exact Hl']. intros a b Hab. exact (proj1 (proj2 Hab)).
    + (* structure *)
      rename d into sd.
      assert (Hentries : forall d ko l, (forall kf, In kf d -> In (snd kf) (subfields (KStructure sd strict key_order : kind))) ->
                NoDup (map fst d) -> struct_conf E (map (fun kf => (fst kf, (snd kf, conforms E n (snd kf)))) d) ko l ->
                (forall name f y, In (name, f) d -> In (VStr name, y) l -> forall k x, meets E f y k x -> faithful_beyond E desc recon more k x) ->
                exists l', Forall2 (fun a b => fst a = fst b
                  /\ forall name f, fst a = VStr name -> In (name, f) d -> trips E desc recon (n + more) f (snd a) (snd b)) l l').
      { intros d ko l Hd Hnd [Hsl [Hent _]] Hme. apply Forall_exists. intros [a y] Ha.
        assert (Hstr : exists name, a = VStr name).
        { apply (in_map fst) in Ha. eapply sublist_In in Ha; [|exact Hsl]. apply in_map_iff in Ha. destruct Ha as [name [Hx _]]. cbn in Hx. eauto. }
        destruct Hstr as [name ->]. destruct (Hent name y Ha) as [c [Hc Hy]].
        apply in_map_iff in Hc. destruct Hc as [[name' f] [[= <- <-] Hin]]. cbn [fst snd] in Hy.
        destruct (Hsub f (Hd _ Hin) y Hy (Hme _ _ _ Hin Ha)) as [w Hw]. exists (VStr name', w). cbn [fst snd]. split; [reflexivity|].
        intros name2 f2 [= <-] Hin2.
        assert (f2 = f) by (apply aget_NoDup_In in Hin; [|exact Hnd]; apply aget_NoDup_In in Hin2; [|exact Hnd]; congruence).
        subst f2. exact Hw. }
      cbn [well_keyed] in Hwk. destruct sd as [d|on vs]; cbn [sdef_map] in H |- *.
      * destruct H as [l [-> Hc]]. destruct Hwk as [Hnd Hko].
        assert (Hd : forall kf, In kf d -> In (snd kf) (subfields (KStructure (SPlain d) strict key_order : kind))).
        { intros kf Hkf. cbn [subfields sdef_fields]. apply in_map, Hkf. }
        destruct (Hentries d key_order l Hd Hnd Hc) as [l' Hl'].
        { intros name f y Hin Hy k x Hx. apply Hm. eapply meets_entry; eauto. }
        assert (Hrun := fun path => struct_trips E desc recon n (n + more) d key_order strict l path VNone Hnd Hko (fun _ => eq_refl) (Hchild d Hd) Hc l' Hl').
        exists (VDict (has_order key_order) l'). split; [|split]; [| |intros p' k' [= <- <-]; split; discriminate].
        -- intros anc. rewrite process_Fld. unfold process_body, process_structure. cbn [kmap sdef_map].
           rewrite is_null_some by discriminate. cbn [bind as_dict]. unfold pre_raw. rewrite Hp. cbn [bind as_dict]. apply Hrun.
        -- intros anc. rewrite process_Fld. unfold process_body, process_structure. cbn [kmap sdef_map].
           rewrite is_null_some by discriminate. cbn [bind as_dict]. unfold pre_raw. rewrite Hp. cbn [bind as_dict]. apply Hrun.
      * destruct H as [l [name [q [y [vk [d [-> [Hq [Hname [Hin [Hyn [Hy [Hh [Hfind Hc]]]]]]]]]]]]]].
        destruct Hwk as [-> [q' [kd [name' [-> [Hname' [Hb [Hkig Hvs]]]]]]]].
        cbn in Hq. subst q'. rewrite Hname in Hname'. injection Hname' as <-.
        destruct Hport as [q2 [kd2 [[= <- <-] Hun]]].
        rewrite (find_map_snd (fun a => veq (e_local E) a y)) in Hfind.
        destruct (find (fun vd => veq (e_local E) (fst vd) y) vs) as [[vk' d']|] eqn:Hf'; [|discriminate].
        cbn [option_map fst snd] in Hfind. injection Hfind as <- <-.
        apply find_some in Hf' as Hfs. destruct Hfs as [Hin_vs Hveq]. cbn [fst] in Hveq.
        rewrite Forall_forall in Hvs. destruct (Hvs _ Hin_vs) as [Hnd Hdisc]. cbn [fst snd] in Hnd, Hdisc.
        assert (Hd : forall kf, In kf d' -> In (snd kf) (subfields (KStructure (SPoly (Fld q kd) vs) strict None : kind))).
        { intros kf Hkf. cbn [subfields sdef_fields]. right. apply in_flat_map. exists (vk', d').
          split; [exact Hin_vs|]. apply in_map, Hkf. }
        assert (Hme : forall name' f y', In (name', f) d' -> In (VStr name', y') l -> forall k x, meets E f y' k x -> faithful_beyond E desc recon more k x).
        { intros name' f y' Hinf Hy' k x Hx. apply Hm. eapply meets_variant; eauto. }
        destruct (Hentries d' None l Hd Hnd Hc Hme) as [l' Hl'].
        assert (Hrun := fun path => struct_trips E desc recon n (n + more) d' None strict l path y Hnd I (fun X => match X eq_refl with end) (Hchild d' Hd) Hc l' Hl').
        assert (Hget : sget name l = Some y).
        { apply sget_NoDup; [|exact Hin]. destruct Hc as [Hsl _]. eapply sublist_NoDup; [exact Hsl|].
          apply Injective_map_NoDup; [intros a b [= Hab]; exact Hab|]. cbn beta iota. rewrite map_map. exact Hnd. }
        assert (Hget' : sget name l' = Some y).
        { assert (Hx := sget_Forall2 (fun key x y => forall name f, key = VStr name -> In (name, f) d' -> trips E desc recon (n + more) f x y) name _ _ Hl').
          rewrite Hget in Hx. destruct (sget name l') as [y'|]; [|contradiction]. f_equal.
          destruct (Hx name _ eq_refl Hdisc) as [_ [_ Hform]]. apply (Hform _ _ eq_refl), Hun. }
        destruct (Hsub (Fld q kd) (or_introl eq_refl) y Hy) as [y' [Ho [Hi Hform]]].
        { intros k x Hx. apply meets_basic in Hx; [|rewrite Hun; reflexivity]. destruct Hx as [-> ->].
          eapply Hme; [exact Hdisc|exact Hin|constructor]. }
        assert (y' = y) by (apply (Hform _ _ eq_refl), Hun). subst y'.
        assert (Hstep : forall ph m m' path,
            (forall a, process_gen E desc recon (n + more) (Fld q kd) false ph true a y = Ok y) -> sget name m = Some y ->
            struct_run E (map (fun kf => (fst kf, (snd kf, process_gen E desc recon (n + more) (snd kf) false))) d')
              strict None y false ph true path m = Ok (VDict false m') ->
            process_structure E p (SPoly (Fld q kd, process_gen E desc recon (n + more) (Fld q kd) false)
              (map (fun vl => (fst vl, map (fun kf => (fst kf, (snd kf, process_gen E desc recon (n + more) (snd kf) false))) (snd vl))) vs))
              strict None false ph true path (VDict false m) = Ok (VDict false m')).
        { intros ph m m' path Hon Hgm Hr. unfold process_structure.
          rewrite is_null_some by discriminate. cbn [bind as_dict]. unfold pre_raw. rewrite Hp. cbn [bind as_dict fst fparams].
          rewrite Hname, Hgm.
          assert (Hgoal : (do ident' <- process_gen E desc recon (n + more) (Fld q kd) false ph true (path ++ [$"." ++ name]) y;
                   if hashable ident' then
                     match find (fun vd => veq (e_local E) (fst vd) ident')
                             (map (fun vl => (fst vl, map (fun kf => (fst kf, (snd kf, process_gen E desc recon (n + more) (snd kf) false))) (snd vl))) vs) with
                     | Some (_, (kf :: rest)) => struct_run E (kf :: rest) strict None ident' false ph true path m
                     | _ => verr path $"unrecognized"
                     end
                   else py TypeError) = Ok (VDict false m')).
          { rewrite Hon. cbn [bind]. rewrite Hh.
            rewrite (find_map_snd (fun a => veq (e_local E) a y)), Hf'. cbn [option_map fst snd].
            destruct d' as [|kf d']; [destruct Hdisc|]. exact Hr. }
          cbn [snd]. destruct y; try congruence; exact Hgoal. }
        exists (VDict false l'). split; [|split]; [| |intros p' k' [= <- <-]; split; discriminate].
        -- intros anc. rewrite process_Fld. unfold process_body. cbn [kmap sdef_map]. apply Hstep; [exact Ho|exact Hget|apply Hrun].
        -- intros anc. rewrite process_Fld. unfold process_body. cbn [kmap sdef_map]. apply Hstep; [exact Hi|exact Hget'|apply Hrun].
    + (* tuple *)
      destruct H as [l [-> Hl]].
      assert (Hl2 : Forall2 (fun g x => exists w, trips E desc recon (n + more) g x w) values l).
      { assert (Hl3 : Forall2 (conforms E n) values l).
        { clear - Hl. remember (map (fun g => (g, conforms E n g)) values) as cs eqn:Hcs. revert values Hcs.
          induction Hl as [|c x cs l Hx Hl IH]; intros [|g gs] Hcs; try discriminate Hcs; constructor; injection Hcs as -> Hcs.
          - exact Hx.
          - apply IH, Hcs. }
        assert (Hidx : forall i g x, nth_error values i = Some g -> nth_error l i = Some x -> conforms E n g x ->
                  exists w, trips E desc recon (n + more) g x w).
        { intros i g x Hg Hx Hcx. apply (Hsub g); [eapply nth_error_In, Hg|exact Hcx|].
          intros k y Hy. apply Hm. eapply meets_element; eauto. }
        clear - Hl3 Hidx. induction Hl3 as [|g x gs l Hx Hl IH]; constructor.
        - apply (Hidx O); [reflexivity..|exact Hx].
        - apply IH. intros i g' x' H1 H2. apply (Hidx (S i)); assumption. }
      assert (Hex : exists l', length l = length l' /\ Forall2 (fun g xy => trips E desc recon (n + more) g (fst xy) (snd xy)) values (combine l l')).
      { clear - Hl2. induction Hl2 as [|g x gs l [w Hw] Hl [l' [Hlen IH]]]; [exists []; split; [reflexivity|constructor]|].
        exists (w :: l'). cbn. split; [lia|]. constructor; assumption. }
      destruct Hex as [l' [Hlen Hl']]. assert (Hlv : length values = length l) by (eapply Forall2_length, Hl2).
      exists (VTuple l'). split; [|split]; [| |intros p' k' [= <- <-]; split; discriminate].
      * intros anc. rewrite process_Fld. unfold process_body. cbn [kmap].
        apply tuple_moves; [exact Hp|rewrite map_length; lia|exact Hlen|].
        clear - Hl'. remember (combine l l') as xs. clear Heqxs. induction Hl' as [|g x gs xs Hx Hxs IH]; cbn [map]; constructor; [|exact IH].
        exact (proj1 Hx).
      * intros anc. rewrite process_Fld. unfold process_body. cbn [kmap].
        apply tuple_moves; [exact Hp|rewrite map_length; lia|lia|].
        clear - Hl' Hlen. revert values l' Hl' Hlen. induction l as [|x l IH]; intros gs [|y l'] Hl' Hlen; try discriminate Hlen;
          inversion Hl'; subst; cbn [map combine]; constructor.
        -- match goal with H : trips _ _ _ _ _ _ _ |- _ => exact (proj1 (proj2 H)) end.
        -- apply IH; [assumption|]. cbn in Hlen. lia.
    + (* union *)
      destruct Hkind as [Hmn Hlp]. cbn [portable] in Hport. cbn [subfields] in Hsub.
      assert (Hvn : v <> VNone) by (intros ->; discriminate).
      destruct H as [c [Hc Hx]]. apply in_map_iff in Hc. destruct Hc as [g [<- Hg]]. cbn [snd] in Hx.
      assert (Hpre : forall q k, In (Fld q k) fields -> p_preprocessor q = None).
      { intros q k Hin. assert (Hev := everywhere_sub _ _ _ _ Ht Hin). apply everywhere_top in Hev. apply Hev. }
      assert (Htr : forall g, In g fields -> conforms E n g v -> exists w, trips E desc recon (n + more) g v w).
      { intros g' Hg' Hc. apply Hsub; [exact Hg'|exact Hc|]. intros k x Hk. apply Hm. eapply meets_alternative; eauto. }
      destruct (union_first E desc recon n (n + more) fields v Hpre Hmn Hlp Hvn (ex_intro _ g (conj Hg Hx)))
        as [before [g' [after [Heq [Hcg Hb]]]]].
      assert (Hg' : In g' fields) by (rewrite Heq; apply in_elt).
      destruct (Htr g' Hg' Hcg) as [w Hw].
      rewrite Forall_forall in Hmn. assert (Hmg := Hmn g' Hg'). destruct g' as [i|q' k']; [exfalso; apply Hmg; exact I|].
      assert (Hwn : w <> VNone) by (eapply trips_nonnull; eauto).
      exists w. split; [|split]; [| |intros p' k'' [= <- <-]; split; discriminate].
      * intros anc. rewrite process_union_eq by exact Hvn. rewrite Heq. apply union_skips; [|apply Hw].
        apply Forall_forall. intros f Hfb. destruct (Hb f Hfb) as [q [k [-> [_ [_ [_ [Ho _]]]]]]]. exact Ho.
      * intros anc. rewrite process_union_eq by exact Hwn. rewrite Heq in *. apply union_skips; [|apply Hw].
        apply Forall_forall. intros f Hfb. destruct (Hb f Hfb) as [q [k [-> [Hq [Hcn [Hmf [_ Hi]]]]]]].
        destruct (pairs_app _ _ _ _ Hport _ Hfb) as [[Hal Hun]|[He Hdis]].
        -- destruct Hw as [_ [_ Hform]]. rewrite (proj1 (Hform _ _ eq_refl) Hun). exact (Hi Hal).
        -- intros a. apply read_refused; auto. intros Hr. eapply Hdis; [exact Hr|].
           eapply wire_typed; [|exact Hmg|exact Hvn|exact (proj1 Hw [])]. eapply Hpre. exact Hg'.
Qed.

Lemma everywhere_weaker (P Q : params -> kind -> Prop) f : (forall p k, P p k -> Q p k) -> everywhere P f -> everywhere Q f.
Proof.
  intros H. induction f as [i|p k IH] using field_ind'; intros Hf; [constructor|].
  constructor; [apply H; exact (everywhere_top _ _ _ Hf)|]. intros g Hg. apply (IH g Hg). eapply everywhere_sub; eauto.
Qed.

Lemma meets_throughout E P f v k x : throughout E P f -> meets E f v k x -> exists p, P p k.
Proof.
  intros [Hf Hu] Hm. revert Hf. induction Hm; intros Hf.
  1: { exists p. exact (everywhere_top _ _ _ Hf). }
  1: { eapply IHHm, Hu. eassumption. }
  all: apply IHHm; eapply everywhere_sub; [exact Hf|].
  - left. reflexivity.
  - eapply nth_error_In. eassumption.
  - right. left. reflexivity.
  - destruct key; left; reflexivity.
  - cbn [subfields sdef_fields]. change f with (snd (name, f)). apply in_map. assumption.
  - cbn [subfields sdef_fields]. right. apply in_flat_map. exists (vk, d). split; [assumption|]. change f with (snd (name, f)). apply in_map. assumption.
  - assumption.
Qed.

Lemma round_trip_all E desc recon n f v :
  throughout E well_keyed f -> throughout E (tidy E) f -> throughout E (portable E) f ->
  conforms E n f v -> (forall k x, meets E f v k x -> faithful E desc recon k x) ->
  exists w, trips E desc recon n f v w.
Proof.
  intros H1 H2 H3 H4 H5. destruct (round_trip_beyond E desc recon n 0 f v H1 H2) as [w Hw]; [|exact H4| |].
  - assert (Hi : forall p k, portable E p k -> portable_beyond E p k) by (intros p k Hk; destruct k; try exact Hk; destruct Hk).
    destruct H3 as [H3 H3']. split; [exact (everywhere_weaker _ _ _ Hi H3)|]. intros i g Hg. exact (everywhere_weaker _ _ _ Hi (H3' i g Hg)).
  - intros k x Hx. split; [exact (H5 k x Hx)|]. intros valid ->. destruct (meets_throughout _ _ _ _ _ _ H3 Hx) as [p []].
  - exists w. rewrite Nat.add_0_r in Hw. exact Hw.
Qed.

(** @prop C34 For every value that conforms to a schema of round-trippable types, outbound
    serialized processing succeeds, and inbound serialized processing of its result returns the
    value.  Values whose text form is lossy by design are excluded ([faithful]). *)
Lemma serialization_round_trip_partial :
  forall E desc recon n f v,
    throughout E well_keyed f -> throughout E (tidy E) f -> throughout E (portable E) f ->
    conforms E n f v -> (forall k x, meets E f v k x -> faithful E desc recon k x) ->
    exists w,
      (forall anc, process_gen E desc recon n f false Outbound true anc v = Ok w)
      /\ (forall anc, process_gen E desc recon n f false Inbound true anc w = Ok v).
Proof.
  intros E desc recon n f v H1 H2 H3 H4 H5.
  destruct (round_trip_all E desc recon n f v H1 H2 H3 H4 H5) as [w [Ho [Hi _]]]. exists w. auto.
Qed.

(** @example
(* A structure with a set of dates and a map of decimals. *)
Example C34_example :
  let f := Fld p0 (KStructure (SPlain
             [($"days", Fld p0 (KSequence (Fld p_nn (KDate None None)) None None true));
              ($"sums", Fld p0 (KMap (Fld p0 (KDecimal None None)) (Some (Fld p_nn (KDate None None))) None))]) true None) in
  let v := VDict false [(VStr $"days", VList [VDate (Date 2024 2 29); VDate (Date 1999 1 1)]);
                        (VStr $"sums", VDict false [(VDate (Date 2000 1 1), VDec (DFin false 150 (-2)%Z))])] in
  let w := VDict false [(VStr $"days", VList [VStr $"2024-02-29"; VStr $"1999-01-01"]);
                        (VStr $"sums", VDict false [(VStr $"2000-01-01", VStr $"1.50")])] in
  run0 f Outbound true v = Ok w /\ run0 f Inbound true w = Ok v
  /\ throughout env0 (portable env0) f /\ forall k x, meets env0 f v k x -> faithful env0 nodesc norecon k x.
Proof.
  split; [reflexivity|]. split; [reflexivity|]. split.
  - split; [|discriminate]. constructor; [exact I|]. intros g [<-|[<-|[]]]; constructor.
    + exists p_nn, (KDate None None). split; reflexivity.
    + intros g [<-|[]]. constructor; [exact I|intros ? []].
    + exists p_nn, (KDate None None). split; [reflexivity|right; split; reflexivity].
    + intros g [<-|[<-|[]]]; constructor; [exact I|intros ? []|exact I|intros ? []].
  - assert (Hday : forall y m d, (y = 2024 /\ m = 2 /\ d = 29 \/ (y = 1999 \/ y = 2000) /\ m = 1 /\ d = 1)%Z ->
              forall k x, meets env0 (Fld p_nn (KDate None None)) (VDate (Date y m d)) k x -> faithful env0 nodesc norecon k x).
    { intros y m d H k x Hx. inversion Hx; subst. right. exists (Date y m d). split; [reflexivity|]. split; [|right; cbn; lia].
      split; [cbn; lia|]. destruct H as [[-> [-> ->]]|[_ [-> ->]]].
      - exists 29%Z. split; [|cbn; lia]. apply ml_leap. split; [exists 506%Z; reflexivity|]. left. intros [z Hz]. cbn in Hz. lia.
      - exists 31%Z. split; [|cbn; lia]. apply ml_long. left. reflexivity. }
    intros k x Hx. inversion Hx; subst; clear Hx; [right; exact I|].
    match goal with H : In _ _ |- _ => destruct H as [H|[H|[]]]; injection H as <- <- end;
      match goal with H : In _ _ |- _ => destruct H as [H|[H|[]]]; try discriminate H; injection H as <- end;
      match goal with H : meets _ _ _ _ _ |- _ => inversion H; subst; clear H end.
    + right. intros l d [= <-] [H|[H|[]]]; discriminate.
    + match goal with H : In _ _ |- _ => destruct H as [<-|[<-|[]]] end;
        match goal with H : meets _ _ _ _ _ |- _ => eapply Hday, H end; lia.
    + right. intros o l d y [= <- <-] [H|[]]; discriminate.
    + match goal with H : In _ _ |- _ => destruct H as [H|[]]; injection H as <- <- end.
      match goal with H : meets _ _ _ _ _ |- _ => eapply Hday, H end; lia.
    + match goal with H : In _ _ |- _ => destruct H as [H|[]]; injection H as <- <- end.
      match goal with H : meets _ _ _ _ _ |- _ => inversion H; subst end. right. exact I.
Qed.
@end *)

(** @example
(* A list of flags, words, numbers and dates by year: [Boolean | Enumeration | Integer | Sequence of Date];
   a number before a text is not such a union, since it would take the text "7". *)
Example C34_alternatives_example :
  let u := Fld p0 (KUnion [Fld p0 KBoolean; Fld p0 (KEnumeration [VStr $"all"; VStr $"none"] None);
                           Fld p0 (KTuple [Fld p0 (KDate None None)]); Fld p0 (KInteger (Some 5%Z) None)]) in
  let v := VTuple [VDate (Date 2024 2 29)] in
  (throughout env0 well_keyed u /\ throughout env0 (tidy env0) u /\ throughout env0 (portable env0) u)
  /\ (conforms env0 5 u v /\ forall k x, meets env0 u v k x -> faithful env0 nodesc norecon k x)
  /\ run0 u Outbound true v = Ok (VTuple [VStr $"2024-02-29"])
  /\ run0 u Inbound true (VTuple [VStr $"2024-02-29"]) = Ok v
  /\ ~ portable env0 p0 (KUnion [Fld p0 (KInteger None None); Fld p0 (KText None None None true)]).
Proof.
  cbv zeta. split; [|split; [split|split; [reflexivity|split; [reflexivity|]]]].
  - assert (Hev : forall P : params -> kind -> Prop, P p0 KBoolean -> P p0 (KEnumeration [VStr $"all"; VStr $"none"] None) ->
       P p0 (KDate None None) -> P p0 (KTuple [Fld p0 (KDate None None)]) -> P p0 (KInteger (Some 5%Z) None) ->
       P p0 (KUnion [Fld p0 KBoolean; Fld p0 (KEnumeration [VStr $"all"; VStr $"none"] None);
                     Fld p0 (KTuple [Fld p0 (KDate None None)]); Fld p0 (KInteger (Some 5%Z) None)]) ->
       throughout env0 P (Fld p0 (KUnion [Fld p0 KBoolean; Fld p0 (KEnumeration [VStr $"all"; VStr $"none"] None);
                     Fld p0 (KTuple [Fld p0 (KDate None None)]); Fld p0 (KInteger (Some 5%Z) None)]))).
    { intros P H1 H2 H3 H4 H5 H6. split; [|discriminate]. constructor; [exact H6|].
      intros g [<-|[<-|[<-|[<-|[]]]]]; (constructor; [assumption|]); intros ? Hg; cbn in Hg; try contradiction.
      destruct Hg as [<-|[]]. constructor; [assumption|intros ? []]. }
    split; [|split]; apply Hev; try exact I; try (repeat split; discriminate).
    + repeat split; try discriminate. intros x [[<-|[<-|[]]]|[]]; reflexivity.
    + split; [reflexivity|]. split; [reflexivity|]. split; [discriminate|]. split.
      * repeat constructor; cbn; try congruence; intros [].
      * repeat first [apply FOP_cons | apply Forall_cons | apply FOP_nil | apply Forall_nil];
          (split; [reflexivity|]); try (left; repeat constructor; fail).
        right. split; [exact I|]. intros w Hi Hn; destruct Hi as [Hi|Hi]; cbn in Hi, Hn;
          repeat match goal with H : exists _, _ |- _ => destruct H end; subst; discriminate.
    + cbn [portable]. repeat first [apply FOP_cons | apply Forall_cons | apply FOP_nil | apply Forall_nil]; cbn [told_apart].
      all: try (left; split; [repeat constructor|reflexivity]; fail).
      all: right; (split; [first [exact I | repeat constructor]|]); intros w Hi Hn; cbn in Hi, Hn;
          repeat match goal with
                 | H : exists _, _ |- _ => destruct H
                 | H : _ /\ _ |- _ => destruct H
                 | H : _ \/ _ |- _ => destruct H
                 end; subst; try discriminate; contradiction.
  - right. split; [discriminate|]. eexists. split; [do 2 right; left; reflexivity|].
    right. split; [discriminate|]. eexists. split; [reflexivity|]. constructor; [|constructor].
    right. split; [discriminate|]. split; [|split; [left; reflexivity|intros _; split; [discriminate|exact I]]].
    left. exists (Date 2024 2 29). split; [reflexivity|]. split; discriminate.
  - intros k x H. inversion H; subst; clear H; [right; exact I|].
    match goal with H : In _ _ |- _ => destruct H as [<-|[<-|[<-|[<-|[]]]]] end.
    1,2,4: match goal with H : meets _ _ _ _ _ |- _ => inversion H; subst; right; exact I end.
    match goal with H : meets _ _ _ _ _ |- _ => inversion H; subst; clear H end; [right; exact I|].
    destruct i as [|[|i]]; cbn in *; try discriminate.
    repeat match goal with H : Some _ = Some _ |- _ => injection H as <- end.
    match goal with H : meets _ _ _ _ _ |- _ => inversion H; subst; clear H end.
    right. exists (Date 2024 2 29). split; [reflexivity|]. split; [|right; cbn; lia]. split; [cbn; lia|].
    exists 29%Z. split; [|cbn; lia]. apply ml_leap. split; [exists 506%Z; reflexivity|]. left. intros [z Hz]. cbn in Hz. lia.
  - cbn [portable]. intros H. inversion H as [|? ? Hp _]; subst. inversion Hp as [|? ? Hq _]; subst.
    destruct Hq as [[[] _]|[_ Hd]]. apply (Hd (VStr $"7")); [exact I|]. exists $"7". reflexivity.
Qed.
@end *)

(** @prop C34 A value of a union is returned if, up to the alternative it conforms to, the
    alternatives refuse its type, and that of its serialized form. *)
Lemma union_serialization_round_trip :
  forall E desc recon n p before f after v,
    throughout E well_keyed f -> throughout E (tidy E) f -> throughout E (portable E) f ->
    conforms E n f v -> (forall k x, meets E f v k x -> faithful E desc recon k x) ->
    Forall (defined E) (before ++ f :: after) -> v <> VNone ->
    let refuses ph x g := forall anc, exists e,
      process_gen E desc recon n g false ph true anc x = Raise (XErr e) /\ er_cls e = CInvalidType in
    Forall (refuses Outbound v) before ->
    (forall w, (forall anc, process_gen E desc recon n f false Outbound true anc v = Ok w) -> Forall (refuses Inbound w) before) ->
    exists w,
      (forall anc, process_gen E desc recon n (Fld p (KUnion (before ++ f :: after))) false Outbound true anc v = Ok w)
      /\ (forall anc, process_gen E desc recon n (Fld p (KUnion (before ++ f :: after))) false Inbound true anc w = Ok v).
Proof.
  intros E desc recon n p before f after v H1 H2 H3 H4 H5 Hdef Hv refuses Ho Hi.
  destruct (round_trip_all E desc recon n f v H1 H2 H3 H4 H5) as [w [Hout [Hin _]]]. exists w.
  assert (Hw : w <> VNone).
  { intros ->. clear - Hin Hv Hdef. assert (Hn : forall m g, process_gen E desc recon m g false Inbound true [] VNone = Ok v -> False).
    { induction m as [|m IH]; intros [i|q k] H.
      all: try (destruct (p_nonnull q) eqn:Hq; [rewrite null_rejected in H by exact Hq; discriminate|];
                rewrite null_accepted in H by exact Hq; congruence).
      all: rewrite process_FUndef in H; destruct (e_undef E i) as [[j|q k]|]; try discriminate.
      exact (IH _ H). }
    exact (Hn n f (Hin [])). }
  split; intros anc.
  - rewrite <- (Hout (path_of p (KUnion (before ++ f :: after)) anc)).
    apply (proj1 (union_exact E desc recon n p _ false Outbound true anc v Hdef Hv) before f after eq_refl).
    + eapply Forall_impl; [|exact Ho]. intros g Hg. apply Hg.
    + intros [e [He _]]. rewrite Hout in He. discriminate.
  - rewrite <- (Hin (path_of p (KUnion (before ++ f :: after)) anc)).
    apply (proj1 (union_exact E desc recon n p _ false Inbound true anc w Hdef Hw) before f after eq_refl).
    + eapply Forall_impl; [|exact (Hi w Hout)]. intros g Hg. apply Hg.
    + intros [e [He _]]. rewrite Hin in He. discriminate.
Qed.

(** @example
(* Among a number, a date and a text, a date is returned. *)
Example C34_union_example :
  let u := Fld p0 (KUnion ([Fld p0 (KInteger None None)] ++ Fld p0 (KDate None None) :: [Fld p0 (KText None None None true)])) in
  Forall (fun g => forall anc, exists e, process_gen env0 nodesc norecon 5 g false Outbound true anc (VDate (Date 2024 2 29)) = Raise (XErr e)
                                         /\ er_cls e = CInvalidType) [Fld p0 (KInteger None None)]
  /\ Forall (fun g => forall anc, exists e, process_gen env0 nodesc norecon 5 g false Inbound true anc (VStr $"2024-02-29") = Raise (XErr e)
                                         /\ er_cls e = CInvalidType) [Fld p0 (KInteger None None)]
  /\ run0 u Outbound true (VDate (Date 2024 2 29)) = Ok (VStr $"2024-02-29")
  /\ run0 u Inbound true (VStr $"2024-02-29") = Ok (VDate (Date 2024 2 29)).
Proof.
  split; [repeat constructor; intros anc; eexists; split; reflexivity|].
  split; [repeat constructor; intros anc; eexists; split; reflexivity|]. split; reflexivity.
Qed.

(* An object, identified by a name under which it is imported. *)
Example C34_object_example :
  let E := {| e_pre := e_pre env0; e_ext := e_ext env0; e_inst := e_inst env0; e_pattern := e_pattern env0; e_local := e_local env0;
              e_pad := e_pad env0; e_udigit := e_udigit env0; e_uword := e_uword env0; e_ulower := e_ulower env0;
              e_import := fun s => if str_eqb s $"module.seven" then Some (VInt 7) else None;
              e_identify := fun v => match v with VInt 7 => Some $"module.seven" | _ => None end;
              e_undef := e_undef env0; e_str := e_str env0; e_impl := e_impl env0; e_schemas := e_schemas env0;
              e_compile := e_compile env0; e_surrogate := e_surrogate env0; e_identity := e_identity env0; e_repr := e_repr env0 |} in
  let f := Fld p0 (KSequence (Fld p0 KObject) None None false) in
  let v := VList [VInt 7; VNone] in
  (forall k x, meets E f v k x -> faithful E nodesc norecon k x)
  /\ process_gen E nodesc norecon 5 f false Outbound true [] v = Ok (VList [VStr $"module.seven"; VNone])
  /\ process_gen E nodesc norecon 5 f false Inbound true [] (VList [VStr $"module.seven"; VNone]) = Ok v.
Proof.
  cbv zeta. split; [|split; reflexivity]. intros k x H. inversion H; subst; clear H; [right; exact I|].
  match goal with H : In _ _ |- _ => destruct H as [<-|[<-|[]]] end;
    match goal with H : meets _ _ _ _ _ |- _ => inversion H; subst end; [right|left; reflexivity].
  exists $"module.seven". split; [reflexivity|]. right. split; [discriminate|reflexivity].
Qed.
@end *)

(** @prop C34 Without these exclusions the claim is false: a time loses its microseconds, a
    conforming list of different decimals, two NaNs, cannot be serialized, the date of a union with a
    text before it comes back as a text, errors come back as other errors, and the name of an object
    that cannot be imported is refused. *)
Lemma serialization_round_trip_refuted :
  (exists t t', t <> t' /\ conforms env0 5 (Fld p0 (KTime None None)) (VTime t)
     /\ exists w, run0 (Fld p0 (KTime None None)) Outbound true (VTime t) = Ok w
                  /\ run0 (Fld p0 (KTime None None)) Inbound true w = Ok (VTime t'))
  /\ (exists l, let f := Fld p0 (KSequence (Fld p0 (KDecimal None None)) None None true) in
        conforms env0 5 f (VList l)
        /\ run0 f Outbound true (VList l) = fails [$"(sequence)"] $"duplicate")
  /\ (exists d s, let f := Fld p0 (KUnion [Fld p0 (KText None None None true); Fld p0 (KDate None None)]) in
        conforms env0 5 f (VDate d)
        /\ run0 f Outbound true (VDate d) = Ok (VStr s) /\ run0 f Inbound true (VStr s) = Ok (VStr s))
  /\ (exists e e' w, e <> e' /\ conforms env0 5 (Fld p0 KError) (VErr e)
        /\ run0 (Fld p0 KError) Outbound true (VErr e) = Ok w /\ run0 (Fld p0 KError) Inbound true w = Ok (VErr e'))
  /\ (exists s, conforms env0 5 (Fld p0 KObject) (VStr s)
        /\ run0 (Fld p0 KObject) Outbound true (VStr s) = Ok (VStr s)
        /\ run0 (Fld p0 KObject) Inbound true (VStr s) = fails [$"(object)"] $"import").
Proof.
  split; [|split; [|split; [|split]]].
  - exists (Tod 1 2 3 4), (Tod 1 2 3 0). split; [discriminate|]. split.
    + right. split; [discriminate|]. split; [|split; [left; reflexivity|intros _; split; [discriminate|exact I]]].
      exists (Tod 1 2 3 4). split; [reflexivity|]. split; discriminate.
    + exists (VStr $"01:02:03"). split; reflexivity.
  - exists [VDec (DNan false false 0); VDec (DNan false false 0)]. split.
    + right. split; [discriminate|]. eexists. split; [reflexivity|]. split; [discriminate|]. split; [discriminate|]. split.
      * assert (Hx : conforms env0 5 (Fld p0 (KDecimal None None)) (VDec (DNan false false 0))).
        { right. split; [discriminate|]. split; [|split; [left; reflexivity|intros _; split; [discriminate|exact I]]].
          exists (DNan false false 0). split; [reflexivity|]. split; [left; split; reflexivity|split; discriminate]. }
        constructor; [exact Hx|]. constructor; [exact Hx|constructor].
      * intros _. split; [repeat constructor|]. intros [|[|i]] [|[|[|j]]] x y Hlt Hx Hy; try lia; cbn in Hx, Hy; try discriminate.
        -- injection Hx as <-. injection Hy as <-. reflexivity.
    + reflexivity.
  - exists (Date 2024 2 29), $"2024-02-29". split; [|split; reflexivity].
    right. split; [discriminate|]. eexists. split; [right; left; reflexivity|].
    right. split; [discriminate|]. split; [|split; [left; reflexivity|intros _; split; [discriminate|exact I]]].
    left. exists (Date 2024 2 29). split; [reflexivity|]. split; discriminate.
  - exists (Err CInvalidType [VDict false [(VStr $"token", VStr $"invalid")]] [$"(text)"] None false). eexists _, _.
    split; [|split; [|split; reflexivity]]; [discriminate|].
    right. split; [discriminate|]. split; [eexists; reflexivity|split; [left; reflexivity|intros _; split; [discriminate|exact I]]].
  - exists $"os.path". split; [|split; reflexivity].
    right. split; [discriminate|]. split; [exact I|split; [left; reflexivity|intros _; split; [discriminate|exact I]]].
Qed.
