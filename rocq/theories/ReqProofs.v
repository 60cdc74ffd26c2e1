(** * Attributes of classes, required fields, enumerations redefined, extraction by unions (C48, C53, C76, C77). *)
(* @imports ReqSpec Demo *)
From Verif Require Import PyBaseFacts Induct ProcessFacts StructFacts StructProofs ConFacts CloneFacts SchemaFacts YamlProofs ExtractProofs BuildProofs ReqSpec Demo.

(** @prop C48 The attributes of the class that tests may name: the type, the base type (None for the
    bare Field), and whether it is structural. *)
Lemma screen_class_attributes :
  forall E p k,
    let '(t, base, container) := class_table k in
    attribute E p k $"type" = VStr t
    /\ attribute E p k $"basetype" = match base with Some b => VStr b | None => VNone end
    /\ attribute E p k $"structural" = VBool container.
Proof.
  intros E p k. unfold attribute, attrs. destruct (p_preprocessor p), k; repeat split; reflexivity.
Qed.
(** @example
Example C48_class_example :
  screen env0 p0 KUUID [($"basetype", VStr $"text"); ($"structural", VBool false)] = true
  /\ screen env0 p0 KUUID [($"type", VStr $"text")] = false.
Proof. split; reflexivity. Qed.
@end *)

(** @prop C53 A union extracts with its first field that does not refuse with CannotExtractError,
    whatever else that field does, from what its own extractor makes of the subject; when all fields
    refuse, so does the union.  An exception of its extractor is not turned into a refusal. *)
Lemma union_extract_exact :
  forall E n strict tests p fs v,
    takes_part E tests p (KUnion fs) -> v <> VNone -> Forall (defined E) fs ->
    let ext f s := extract E n strict tests f s in
    let out := ext (Fld p (KUnion fs)) v in
    (forall i x, p_extractor p = Some i -> e_ext E i v = Raise x -> out = Raise x)
    /\ forall s, match p_extractor p with None => s = v | Some i => e_ext E i v = Ok s end ->
        (forall before f after,
           fs = before ++ f :: after ->
           (forall g, In g before -> ext g s = py CannotExtractError) ->
           ext f s <> py CannotExtractError -> out = ext f s)
        /\ ((forall f, In f fs -> ext f s = py CannotExtractError) -> out = py CannotExtractError).
Proof.
  intros E n strict tests p fs v Ht Hv Hdef ext out. unfold out, ext. rewrite extract_Fld. unfold extract_body.
  rewrite (takes_part_test _ _ _ _ Ht). destruct (is_none v) eqn:Hn; [destruct v; discriminate || congruence|]. cbn [kmap].
  split; [intros i x -> ->; reflexivity|]. intros s Hs.
  assert (Hb : (do s <- match p_extractor p with None => Ok v | Some i => e_ext E i v end;
      extract_union E (map (fun g => (g, extract E n strict tests g)) fs) s)
     = extract_union E (map (fun g => (g, extract E n strict tests g)) fs) s).
  { destruct (p_extractor p); [rewrite Hs; reflexivity|subst s; reflexivity]. }
  rewrite Hb. clear Hb Hs out Ht.
  assert (Hw : forall g, In g fs -> work E (g, extract E n strict tests g) s = extract E n strict tests g s).
  { intros g Hg. rewrite Forall_forall in Hdef. unfold work. cbn [fst snd]. apply wrap_defined. apply Hdef, Hg. }
  split.
  - intros before f after -> Hbefore Hf. induction before as [|g before IH]; cbn [app map extract_union].
    + rewrite Hw by (left; reflexivity). destruct (extract E n strict tests f s) as [r|[e|x]]; try reflexivity. destruct x; try reflexivity. contradiction Hf; reflexivity.
    + rewrite Hw by (left; reflexivity). rewrite (Hbefore g) by (left; reflexivity). cbn. apply IH.
      * inversion Hdef; assumption.
      * intros h Hh. apply Hw. right. exact Hh.
      * intros h Hh. apply Hbefore. right. exact Hh.
  - clear Hdef. induction fs as [|g fs IH]; intros H; [reflexivity|]. cbn [map extract_union]. rewrite Hw by (left; reflexivity).
    rewrite (H g) by (left; reflexivity). cbn. apply IH; [intros h Hh; apply Hw; right; exact Hh|intros h Hh; apply H; right; exact Hh].
Qed.
(** @example
Example C53_union_example :
  let fs := [Fld p0 (KSequence (Fld p0 KBoolean) None None false); Fld p_req KBoolean; Fld p0 KBoolean] in
  extract env0 0 true [] (Fld p0 (KUnion fs)) (VStr $"ab") = Ok (VStr $"ab")
  /\ extract env0 0 true [($"required", VBool false)] (Fld p0 (KUnion fs)) (VStr $"ab") = py FieldExcludedError.
Proof. split; reflexivity. Qed.
@end *)

(** ** Required fields *)

(** @prop C76 has_required_fields is True for a polymorphic structure; otherwise it is True exactly
    when some field is required and has no default.  (Fields that are placeholders must have been
    defined; otherwise an AttributeError may be raised.) *)
Lemma has_required_fields_exact :
  forall E l ps,
    Forall2 (parameters_of E) l ps ->
    (forall on vs, has_required_fields E (SPoly on vs) = Ok true)
    /\ (has_required_fields E (SPlain l) = Ok true <-> exists s q, In (s, q) ps /\ must_be_given q)
    /\ (has_required_fields E (SPlain l) = Ok false <-> forall s q, In (s, q) ps -> ~ must_be_given q).
Proof.
  intros E l ps H. split; [reflexivity|]. cbn [has_required_fields].
  assert (Hr : (required_among E l = Ok true /\ exists s q, In (s, q) ps /\ must_be_given q)
               \/ (required_among E l = Ok false /\ forall s q, In (s, q) ps -> ~ must_be_given q)).
  { induction H as [|[s f] [s' p] l ps [Hs Hf] Hl IH]; [right; split; [reflexivity|intros ? ? []]|].
    cbn [fst snd] in *. subst s'. cbn [required_among]. apply fparams_iff in Hf. rewrite Hf.
    destruct (p_required p && is_none (p_default p)) eqn:Hb.
    - left. split; [reflexivity|]. exists s, p. split; [left; reflexivity|]. apply andb_prop in Hb. destruct Hb as [H1 H2].
      split; [exact H1|]. destruct (p_default p); try discriminate. reflexivity.
    - destruct IH as [[IH [s' [q [Hi Hq]]]]|[IH Hno]].
      + left. split; [exact IH|]. exists s', q. split; [right; exact Hi|exact Hq].
      + right. split; [exact IH|]. intros s' q [Hi|Hi]; [|apply (Hno _ _ Hi)]. injection Hi as <- <-.
        intros [H1 H2]. rewrite H1, H2 in Hb. discriminate. }
  destruct Hr as [[-> Hx]|[-> Hx]]; split; split; try discriminate; auto.
  - intros Hno. destruct Hx as [s [q [Hi Hq]]]. destruct (Hno s q Hi Hq).
  - intros [s [q [Hi Hq]]]. destruct (Hx s q Hi Hq).
Qed.
(** @example
Example C76_example :
  has_required_fields env0 (SPlain [($"a", Fld p0 KBoolean); ($"b", Fld p_req KBoolean)]) = Ok true
  /\ has_required_fields env0 (SPlain [($"a", Fld (p_def (VBool true)) KBoolean)]) = Ok false.
Proof. split; reflexivity. Qed.
@end *)

(** @prop C76 What it means: when it is True the structure refuses the empty dict inbound, and when
    it is False it accepts the empty dict provided that the fields accept their defaults. *)
Lemma has_required_fields_meaning :
  forall E desc recon n p defn strict ser anc o,
    p_preprocessor p = None -> NoDup (map fst defn) -> Forall (fun kf => defined E (snd kf)) defn ->
    let f := Fld p (KStructure (SPlain defn) strict None) in
    let path := path_of p (KStructure (SPlain defn) strict None) anc in
    (has_required_fields E (SPlain defn) = Ok true ->
       forall r, process_gen E desc recon n f false Inbound ser anc (VDict o []) <> Ok r)
    /\ (has_required_fields E (SPlain defn) = Ok false ->
       (forall k g q, In (k, g) defn -> defined_as E g q -> p_default q <> VNone ->
          exists w, process_gen E desc recon n g false Inbound ser (path ++ [name_segment k]) (p_default q) = Ok w) ->
       exists r, process_gen E desc recon n f false Inbound ser anc (VDict o []) = Ok r).
Proof.
  intros E desc recon n p defn strict ser anc o Hpre Hnd Hdef f path.
  assert (Hps : exists ps, Forall2 (parameters_of E) defn ps).
  { clear -Hdef. induction Hdef as [|[s g] l [q Hq] Hl [ps IH]]; [exists []; constructor|]. exists ((s, q) :: ps). constructor; [|exact IH].
    split; [reflexivity|exact Hq]. }
  destruct Hps as [ps Hps].
  destruct (has_required_fields_exact E defn ps Hps) as [_ [Htrue Hfalse]].
  assert (Hacc := fun r => structure_accepts E desc recon n p defn strict None false Inbound ser anc defn o [] r
                             Hpre Hnd Hnd Hdef eq_refl I).
  cbn zeta in Hacc. split.
  - intros H r Hr. apply Htrue in H. destruct H as [s [q [Hi [Hreq Hd]]]].
    apply (Forall2_In_r _ _ _ Hps) in Hi. destruct Hi as [[k g] [Hi [Hk Hg]]]. cbn [fst snd] in Hk, Hg. subst k.
    apply Hacc in Hr. destruct Hr as [_ [entries [_ Hgath]]].
    assert (Hbad : fate E (fun k g x => process_gen E desc recon n g false Inbound ser (path ++ [name_segment k]) x)
                     Inbound false path [] (s, g) (Some (fails path $"required"))).
    { eapply fate_required; [exact Hg|intros v []|reflexivity|right; exact Hd|exact Hreq]. }
    clear -Hgath Hi Hbad. revert Hi. induction Hgath as [|kf l es H1 H2 IH|k' g' out e l es H1 H2 H3 IH]; intros Hi; [contradiction| |].
    + destruct Hi as [-> |Hi]; [|apply IH, Hi]. pose proof (fate_fun E desc recon n p defn strict None false Inbound ser anc [] I _ _ _ H1 Hbad). discriminate.
    + destruct Hi as [[= -> ->]|Hi]; [|apply IH, Hi]. pose proof (fate_fun E desc recon n p defn strict None false Inbound ser anc [] I _ _ _ H1 Hbad) as He. injection He as ->. discriminate.
  - intros H Hok. pose proof (proj1 Hfalse H) as Hno.
    assert (Hg : exists entries, gathered (fate E (fun k g x => process_gen E desc recon n g false Inbound ser (path ++ [name_segment k]) x)
                     Inbound false path []) (fun out y => out = Ok y) defn entries).
    { clear Hacc Htrue Hfalse Hpre Hnd f H. clearbody path. induction Hps as [|[s g] [s' q] l ps [Hs Hq] Hl IH]; [exists []; constructor|].
      cbn [fst snd] in *. subst s'. destruct IH as [entries IH].
      - inversion Hdef; assumption.
      - intros k h q' Hi. apply (Hok k h q'). right. exact Hi.
      - intros t q' Hi. apply (Hno t q'). right. exact Hi.
      - assert (Hdec : p_default q = VNone \/ p_default q <> VNone) by (destruct (p_default q); auto; right; discriminate).
        destruct Hdec as [Hd|Hd].
        + exists entries. apply gathered_skip; [|exact IH].
          eapply fate_optional; [exact Hq|intros v []|reflexivity|right; exact Hd|].
          destruct (p_required q) eqn:Hr; [|reflexivity]. destruct (Hno s q); [left; reflexivity|split; assumption].
        + destruct (Hok s g q (or_introl eq_refl) Hq Hd) as [w Hw]. exists ((VStr s, w) :: entries).
          eapply gathered_add; [|exact Hw|exact IH]. eapply (fate_default E (fun k g x => process_gen E desc recon n g false Inbound ser (path ++ [name_segment k]) x) Inbound false path [] s g q); [exact Hq|intros v []|reflexivity|reflexivity|exact Hd]. }
    destruct Hg as [entries Hg]. eexists. apply Hacc. split; [intros _ k []|]. exists entries. split; [reflexivity|exact Hg].
Qed.
(** @example
Example C76_meaning_example :
  run0 (Fld p0 (KStructure (SPlain [($"a", Fld (p_def (VBool true)) KBoolean); ($"b", Fld p0 KBoolean)]) true None))
    Inbound false (VDict false []) = Ok (VDict false [(VStr $"a", VBool true)]).
Proof. reflexivity. Qed.
@end *)

(** ** Enumerations redefined *)

Lemma num_eqb_trans a b c : num_eqb a b = true -> num_eqb b c = true -> num_eqb a c = true.
Proof.
  destruct a, b, c; cbn; try discriminate.
  - intros H1 H2. apply Qeq_bool_iff in H1. apply Qeq_bool_iff in H2. apply Qeq_bool_iff. rewrite H1. exact H2.
  - intros H1 H2. apply eqb_prop in H1. apply eqb_prop in H2. subst. destruct neg1; reflexivity.
Qed.

Lemma veq_simple_trans L a b c : simple a -> simple b -> veq L a b = true -> veq L b c = true -> veq L a c = true.
Proof.
  assert (Hnum : forall m, (match num_of b with Some n => num_eqb m n | None => false end) = true -> simple b ->
     veq L b c = true -> (match num_of c with Some n => num_eqb m n | None => false end) = true).
  { intros m H Hb Hc. destruct b; try discriminate; cbn [num_of veq] in *;
      (destruct (num_of c) as [n|]; [|discriminate]); eapply num_eqb_trans; eassumption. }
  destruct a; try contradiction; intros _ Hb H1 H2; cbn [veq] in H1 |- *; try (eapply Hnum; eassumption).
  - destruct b; try discriminate. exact H2.
  - destruct b; try discriminate. cbn [veq] in H2. destruct c; try discriminate.
    apply str_eqb_eq in H1. subst. exact H2.
Qed.

Lemma simple_hashable v : simple v -> hashable v = true.
Proof. destruct v; try contradiction; reflexivity. Qed.

Lemma members_incl E l v : In v (members E l) -> In v l.
Proof.
  induction l as [|x l IH]; [intros []|]. cbn. intros [H|H]; [left; exact H|]. apply filter_In in H. right. apply IH, H.
Qed.

Lemma members_among E l v : Forall simple l -> among (e_local E) v (members E l) <-> among (e_local E) v l.
Proof.
  intros HF. split.
  - intros [x [Hi Hx]]. exists x. split; [apply (members_incl E), Hi|exact Hx].
  - induction l as [|y l IH]; intros [x [Hi Hx]]; [contradiction|]. inversion HF as [|? ? Hy HF']; subst.
    destruct Hi as [-> |Hi]; [exists x; split; [left; reflexivity|exact Hx]|].
    destruct IH as [z [Hz Hzv]]; [exact HF'|exists x; auto|]. destruct (veq (e_local E) y z) eqn:Hyz.
    + exists y. split; [left; reflexivity|]. apply (veq_simple_trans _ y z v Hy); [|exact Hyz|exact Hzv].
      rewrite Forall_forall in HF'. apply HF', (members_incl E), Hz.
    + exists z. split; [|exact Hzv]. right. apply filter_In. split; [exact Hz|]. rewrite Hyz. reflexivity.
Qed.

Lemma members_distinct E l : distinct (e_local E) (members E l).
Proof.
  induction l as [|x l IH]; [exact I|]. cbn [members distinct]. split.
  - intros y Hy. apply filter_In in Hy. destruct Hy as [_ Hy]. destruct (veq (e_local E) x y); [discriminate|reflexivity].
  - revert IH. generalize (members E l). intros m. induction m as [|y m IHm]; [auto|]. intros [H1 H2]. cbn [filter].
    destruct (negb (veq (e_local E) x y)); [|apply IHm, H2]. cbn [distinct]. split; [|apply IHm, H2].
    intros z Hz. apply filter_In in Hz. apply H1, Hz.
Qed.

Lemma values_given_new v new : values_given v new ->
  match v with VStr s => Ok (map VStr (split_space s)) | VList l => Ok l | _ => py TypeError end = Ok new.
Proof.
  intros [[s [names [-> [Hw ->]]]]| ->]; [|reflexivity]. rewrite (words_split _ _ Hw). reflexivity.
Qed.

(** @prop C77 redefine adds the given values to an enumeration (strategy append) or puts them in
    place of the old ones (replace): afterwards the members are exactly the values equal to an old
    or given one, none twice.  Any other strategy is a ValueError and values that cannot be hashed
    are a TypeError. *)
Lemma redefine_exact :
  forall E old enumeration new,
    values_given enumeration new ->
    (forall strategy kept, strategy = $"append" /\ kept = old \/ strategy = $"replace" /\ kept = [] ->
       (Forall simple kept -> Forall simple new ->
          exists l, redefine E old enumeration strategy = Ok l
            /\ (forall v, among (e_local E) v l <-> among (e_local E) v kept \/ among (e_local E) v new)
            /\ distinct (e_local E) l /\ incl l (kept ++ new))
       /\ ((exists v, In v (kept ++ new) /\ hashable v = false) -> redefine E old enumeration strategy = py TypeError))
    /\ (forall strategy, strategy <> $"append" -> strategy <> $"replace" ->
          redefine E old enumeration strategy = py ValueError).
Proof.
  intros E old enumeration new Hv. apply values_given_new in Hv. split.
  - intros strategy kept Hs.
    assert (He : redefine E old enumeration strategy
                 = if forallb hashable (kept ++ new) then Ok (members E (kept ++ new)) else py TypeError)
      by (unfold redefine; rewrite Hv; destruct Hs as [[-> ->]|[-> ->]]; reflexivity).
    rewrite He. clear He Hs. split.
    + intros H1 H2. assert (Hall : Forall simple (kept ++ new)) by (apply Forall_app; auto).
      assert (Hh : forallb hashable (kept ++ new) = true).
      { apply forallb_forall. rewrite Forall_forall in Hall. intros x Hx. apply simple_hashable, Hall, Hx. }
      rewrite Hh. exists (members E (kept ++ new)). split; [reflexivity|]. split; [|split; [apply members_distinct|intros x; apply members_incl]].
      intros v. rewrite (members_among E _ v Hall). unfold among. split.
      * intros [x [Hi Hx]]. apply in_app_or in Hi. destruct Hi; [left|right]; exists x; auto.
      * intros [[x [Hi Hx]]|[x [Hi Hx]]]; exists x; (split; [apply in_or_app; auto|exact Hx]).
    + intros [v [Hi Hh]]. destruct (forallb hashable (kept ++ new)) eqn:Hb; [|reflexivity].
      rewrite forallb_forall in Hb. rewrite (Hb v Hi) in Hh. discriminate.
  - intros strategy H1 H2. apply str_eqb_neq in H1. apply str_eqb_neq in H2. unfold redefine. rewrite Hv, H1, H2. reflexivity.
Qed.
(** @example
Example C77_example :
  redefine env0 [VStr $"a"; VInt 1] (VStr $"a b") $"append" = Ok [VStr $"a"; VInt 1; VStr $"b"]
  /\ redefine env0 [VStr $"a"; VInt 1] (VList [VBool true; VInt 1]) $"replace" = Ok [VBool true]
  /\ redefine env0 [] (VList []) $"prepend" = py ValueError.
Proof. repeat split; reflexivity. Qed.
@end *)
