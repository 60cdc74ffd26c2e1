(** * Facts about copies of fields. *)
From Verif Require Import PyBaseFacts Induct ProcessFacts Spec StructFacts StructProofs UndefProofs RtProofs ConFacts.

Definition kalike (k' k : kind) : Prop := kmap undocumented k' = kmap undocumented k.

Lemma kalike_refl k : kalike k k.
Proof. reflexivity. Qed.
Lemma kalike_trans a b c : kalike a b -> kalike b c -> kalike a c.
Proof. unfold kalike. congruence. Qed.

Lemma alike_Fld p' k' p k : alike (Fld p' k') (Fld p k) <-> bare p' = bare p /\ kalike k' k.
Proof.
  unfold alike, kalike. cbn [undocumented]. split; [|intros [-> ->]; reflexivity]. intros H. split.
  - exact (f_equal (fun f => match f with Fld q _ => q | FUndef _ => bare p end) H).
  - exact (f_equal (fun f => match f with Fld _ q => q | FUndef _ => kmap undocumented k end) H).
Qed.

Lemma alike_inv g p k : alike g (Fld p k) -> exists p' k', g = Fld p' k' /\ bare p' = bare p /\ kalike k' k.
Proof.
  destruct g as [i|p' k']; intros H; [discriminate|]. apply alike_Fld in H. destruct H. eauto.
Qed.

Lemma subfields_kmap (g : field -> field) (k : kind) : subfields (kmap g k) = map g (subfields k).
Proof.
  destruct k as [ | | | | | | | | | | | |value [key|] rk| |item a b u|d s o| | | | |l|l| ]; cbn; try reflexivity.
  destruct d as [l|on l]; cbn; [rewrite !map_map; reflexivity|]. f_equal.
  induction l as [|[w d] l IH]; cbn; [reflexivity|]. rewrite map_app, <- IH, !map_map. reflexivity.
Qed.

Lemma kalike_sub k' k g : kalike k' k -> In g (subfields k') -> exists h, In h (subfields k) /\ alike g h.
Proof.
  intros H Hg. apply (f_equal subfields) in H. rewrite !subfields_kmap in H.
  assert (Hi : In (undocumented g) (map undocumented (subfields k'))) by (apply in_map; exact Hg).
  rewrite H in Hi. apply in_map_iff in Hi. destruct Hi as [h [Hh Hi]]. exists h. split; [exact Hi|]. symmetry. exact Hh.
Qed.

Lemma within_alike n : forall f g, alike f g -> within n g -> within n f.
Proof.
  induction n as [|n IH]; intros f g H Hw; [contradiction|].
  destruct g as [j|p k]; [destruct f; [exact I|discriminate]|].
  apply alike_inv in H. destruct H as [p' [k' [-> [_ Hk]]]]. cbn. intros h Hh.
  destruct (kalike_sub _ _ _ Hk Hh) as [h' [Hi Ha]]. apply (IH _ _ Ha). apply Hw, Hi.
Qed.

Lemma within_mono (n m : nat) f : (n <= m)%nat -> within n f -> within m f.
Proof.
  revert m f. induction n as [|n IH]; intros m f Hm H; [contradiction|]. destruct m as [|m]; [lia|].
  destruct f as [i|p k]; [exact I|]. cbn. intros g Hg. apply IH; [lia|]. apply H, Hg.
Qed.

Lemma within_exists f : exists n, within n f.
Proof.
  induction f as [i|p k IH] using field_ind'; [exists 1%nat; exact I|].
  assert (H : exists n, forall g, In g (subfields k) -> within n g).
  { induction (subfields k) as [|g l IHl]; [exists O; intros g []|].
    destruct IHl as [n Hn]; [intros h Hh; apply IH; right; exact Hh|].
    destruct (IH g) as [m Hm]; [left; reflexivity|]. exists (n + m)%nat. intros h [-> |Hh].
    - apply (within_mono m); [lia|exact Hm].
    - apply (within_mono n); [lia|]. apply Hn, Hh. }
  destruct H as [n Hn]. exists (S n). exact Hn.
Qed.

Lemma sound_Fld E p k : sound E (Fld p k) <->
  constructed_params p /\ constructed_kind E k /\ forall g, In g (subfields k) -> sound E g.
Proof.
  unfold sound. split.
  - intros [Hc He]. inversion Hc as [? ? Hcs]; subst. inversion He as [|? ? [H1 H2] Hes]; subst. auto.
  - intros [H1 [H2 H3]]. split; constructor; auto; intros g Hg; apply H3, Hg.
Qed.

Lemma sound_inv E f : sound E f -> exists p k, f = Fld p k.
Proof. intros [H _]. inversion H. eauto. Qed.

Lemma bare_name p q : bare p = bare q -> p_name p = p_name q /\ p_required p = p_required q.
Proof. intros H. split; [apply (f_equal p_name) in H|apply (f_equal p_required) in H]; exact H. Qed.

Definition uf (kf : str * field) : str * field := (fst kf, undocumented (snd kf)).

Lemma has_name_alike l' l : map uf l' = map uf l -> Forall has_name l -> Forall has_name l'.
Proof.
  revert l'. induction l as [|[s f] l IH]; intros l' H HF; destruct l' as [|[s' f'] l']; try discriminate; [constructor|].
  cbn in H. injection H as Hs Hf Hl. subst s'. inversion HF as [|? ? H1 H2]; subst. constructor; [|apply IH; assumption].
  unfold has_name in *. cbn [fst snd] in *. destruct f as [i|p k]; destruct f' as [i'|p' k']; try discriminate; [exact I|].
  apply alike_Fld in Hf. destruct Hf as [Hb _]. apply bare_name in Hb. destruct Hb as [-> _]. exact H1.
Qed.

Lemma aget_uf name l' l c : map uf l' = map uf l -> aget name l = Some c -> exists c', aget name l' = Some c' /\ alike c' c.
Proof.
  revert l'. induction l as [|[s f] l IH]; intros l' H Hg; destruct l' as [|[s' f'] l']; try discriminate.
  cbn in H. injection H as Hs Hf Hl. subst s'. cbn in *. destruct (str_eqb name s); [|apply IH; assumption].
  injection Hg as <-. exists f'. split; [reflexivity|exact Hf].
Qed.

Lemma with_constant_bare p q c : bare p = bare q -> bare (with_constant p c) = bare (with_constant q c).
Proof. destruct p, q. unfold bare, with_constant. cbn. intros H. injection H. intros. subst. reflexivity. Qed.

Lemma constructed_kind_alike E k' k : kalike k' k -> constructed_kind E k -> constructed_kind E k'.
Proof.
  intros H Hk. unfold kalike in H.
  destruct k; destruct k'; try discriminate; try exact Hk; cbn in H; try (injection H; intros; subst; exact Hk).
  - injection H as Hd -> ->. destruct Hk as [Ho Hk]. split; [exact Ho|].
    destruct d as [l|on vs]; destruct d0 as [l'|on' vs']; try discriminate; cbn in Hd.
    + injection Hd as Hd. apply (has_name_alike _ l); assumption.
    + injection Hd as Hon Hvs. destruct Hk as [q [kd [name [-> [Hn [Hr HF]]]]]].
      apply alike_inv in Hon. destruct Hon as [q' [kd' [-> [Hb Hkd]]]]. exists q', kd', name.
      split; [reflexivity|]. destruct (bare_name _ _ Hb) as [-> ->]. split; [exact Hn|]. split; [exact Hr|].
      revert vs' Hvs. induction vs as [|[i l] vs IH]; intros vs' Hvs; destruct vs' as [|[i' l'] vs']; try discriminate;
        [constructor|]. cbn in Hvs. injection Hvs as Hi Hl Hvs. subst i'. inversion HF as [|? ? H1 H2]; subst.
      constructor; [|apply IH; assumption]. cbn [fst snd] in *. destruct H1 as [Hi1 [Hi2 [Hi3 [c [Hc Hcc]]]]].
      split; [exact Hi1|]. split; [exact Hi2|]. split; [apply (has_name_alike _ l); assumption|].
      destruct (aget_uf name l' l c Hl Hc) as [c' [Hc' Ha]]. exists c'. split; [exact Hc'|].
      apply (alike_trans _ _ _ Ha). apply (alike_trans _ _ _ Hcc). apply alike_sym, alike_Fld. split; [|exact Hkd].
      apply with_constant_bare, Hb.
  - injection H as H. cbn in *. intros ->. apply Hk. symmetry in H. apply map_eq_nil in H. exact H.
  - injection H as H. cbn in *. intros ->. apply Hk. symmetry in H. apply map_eq_nil in H. exact H.
Qed.

(** ** Copying the attributes of a field *)

Section Copy.
Variable E : env.
Variable cl : field -> list (str * val) -> res field.

Definition copyable (g : field) : Prop :=
  exists g', dcopy E cl (VField g) = Ok (VField g') /\ alike g' g /\ sound E g'.

Lemma copy_fields l : (forall g, In g l -> copyable g) ->
  exists l', each (dcopy E cl) (map VField l) = Ok (map VField l') /\ map undocumented l' = map undocumented l
    /\ forall g, In g l' -> sound E g.
Proof.
  induction l as [|f l IH]; intros H; [exists []; split; [reflexivity|split; [reflexivity|intros ? []]]|].
  destruct (H f) as [f' [Hf [Ha Hs]]]; [left; reflexivity|].
  destruct IH as [l' [Hl [Hm Hg]]]; [intros; apply H; right; assumption|].
  exists (f' :: l'). cbn [map each]. rewrite Hf. cbn [bind]. rewrite Hl. cbn [bind]. split; [reflexivity|].
  split; [|intros g [<-|Hi]; auto]. f_equal; [exact Ha|exact Hm].
Qed.

Lemma copy_struct l : (forall g, In g (map snd l) -> copyable g) ->
  exists l', dcopy E cl (struct_val l) = Ok (struct_val l') /\ map uf l' = map uf l
    /\ forall g, In g (map snd l') -> sound E g.
Proof.
  unfold struct_val. rewrite dcopy_dict. induction l as [|[s f] l IH]; intros H; [exists []; split; [reflexivity|split; [reflexivity|intros ? []]]|].
  destruct (H f) as [f' [Hf [Ha Hs]]]; [left; reflexivity|].
  destruct IH as [l' [Hl [Hm Hg]]]; [intros; apply H; right; assumption|].
  exists ((s, f') :: l'). cbn [map each fst snd]. rewrite Hf. cbn [bind]. apply bind_Ok in Hl. destruct Hl as [w [Hw Hl]].
  rewrite Hw. cbn [bind]. injection Hl as ->. split; [reflexivity|].
  split; [|intros g [<-|Hi]; auto]. unfold uf at 1 3. cbn [fst snd]. f_equal; [f_equal; exact Ha|exact Hm].
Qed.

Definition uv (vl : val * list (str * field)) := (fst vl, map uf (snd vl)).

Lemma copy_variants vs : (forall g, In g (flat_map (fun vl => map snd (snd vl)) vs) -> copyable g) ->
  exists vs', dcopy E cl (VDict false (map (fun vl => (fst vl, struct_val (snd vl))) vs))
              = Ok (VDict false (map (fun vl => (fst vl, struct_val (snd vl))) vs'))
    /\ map uv vs' = map uv vs
    /\ forall g, In g (flat_map (fun vl => map snd (snd vl)) vs') -> sound E g.
Proof.
  rewrite dcopy_dict. induction vs as [|[s f] l IH]; intros H; [exists []; split; [reflexivity|split; [reflexivity|intros ? []]]|].
  destruct (copy_struct f) as [f' [Hf [Ha Hs]]]; [intros g Hg; apply H; cbn; apply in_or_app; auto|].
  destruct IH as [l' [Hl [Hm Hg]]]; [intros g Hg; apply H; cbn; apply in_or_app; auto|].
  exists ((s, f') :: l'). cbn [map each fst snd]. rewrite Hf. cbn [bind]. apply bind_Ok in Hl. destruct Hl as [w [Hw Hl]].
  rewrite Hw. cbn [bind]. injection Hl as ->. split; [reflexivity|]. split.
  - unfold uv at 1 3. cbn [fst snd]. f_equal; [f_equal; exact Ha|exact Hm].
  - intros g Hi. cbn in Hi. apply in_app_or in Hi. destruct Hi; auto.
Qed.

Definition copies (k k' : kind) : Prop :=
  Forall2 (fun a b => fst b = fst a /\ dcopy E cl (snd a) = Ok (snd b)) (kind_attrs E k) (kind_attrs E k').

Lemma copies_same k : forallb (fun kv => fieldless (snd kv)) (kind_attrs E k) = true -> copies k k.
Proof.
  unfold copies. induction (kind_attrs E k) as [|[s v] l IH]; cbn; intros H; [constructor|].
  apply andb_prop in H. destruct H as [Hv Hl]. constructor; [|apply IH, Hl]. split; [reflexivity|].
  apply dcopy_fieldless, Hv.
Qed.

Lemma fieldless_strs l : forallb fieldless (map VStr l) = true.
Proof. induction l; auto. Qed.

Lemma copy_kind k : (forall g, In g (subfields k) -> copyable g) -> constructed_kind E k ->
  exists k', copies k k' /\ kalike k' k /\ cls_of k' = cls_of k /\ forall g, In g (subfields k') -> sound E g.
Proof.
  intros H Hk.
  assert (Hsame : subfields k = [] -> forallb (fun kv => fieldless (snd kv)) (kind_attrs E k) = true ->
                  exists k', copies k k' /\ kalike k' k /\ cls_of k' = cls_of k /\ forall g, In g (subfields k') -> sound E g).
  { intros Hn Hf. exists k. split; [apply copies_same, Hf|]. split; [apply kalike_refl|]. split; [reflexivity|].
    rewrite Hn. intros g []. }
  destruct k as [ |mn mx| |mn mx|mn mx utc|mn mx|vf|mu ex mn mx|l ig| |mn mx|mn mx|value key rk| |item mn mx u|d s o|vs
                 |pat mn mx st|mn mx|sg|l|l| ];
    try (apply Hsame; [reflexivity|];
         repeat match goal with o : option _ |- _ => destruct o end; cbn; rewrite ?fieldless_strs; reflexivity).
  - apply Hsame; [reflexivity|]. cbn in *. destruct Hk as [[_ Hl] Hi]. rewrite Hl. destruct ig as [i|]; [|reflexivity].
    cbn. destruct (Hi i eq_refl) as [_ ->]. reflexivity.
  - cbn [subfields] in H. destruct (H value) as [v' [Hv [Hva Hvs]]]; [destruct key; left; reflexivity|].
    assert (Hrk : dcopy E cl (opt VList rk) = Ok (opt VList rk)).
    { apply dcopy_fieldless. destruct rk as [r|]; [|reflexivity]. cbn in Hk. apply (Hk r eq_refl). }
    destruct key as [key|].
    + destruct (H key) as [k' [Hkk [Hka Hks]]]; [right; left; reflexivity|].
      exists (KMap v' (Some k') rk). split.
      { unfold copies. cbn [kind_attrs opt]. repeat (constructor; [split; [reflexivity|cbn [fst snd]; assumption]|]). constructor. }
      split; [unfold kalike; cbn; rewrite Hva, Hka; reflexivity|]. split; [reflexivity|].
      cbn. intros g [<-|[<-|[]]]; assumption.
    + exists (KMap v' None rk). split.
      { unfold copies. cbn [kind_attrs opt]. constructor; [split; reflexivity|].
        repeat (constructor; [split; [reflexivity|cbn [fst snd]; assumption]|]). constructor. }
      split; [unfold kalike; cbn; rewrite Hva; reflexivity|]. split; [reflexivity|].
      cbn. intros g [<-|[]]; assumption.
  - cbn [subfields] in H. destruct (H item) as [v' [Hv [Hva Hvs]]]; [left; reflexivity|].
    exists (KSequence v' mn mx u). split.
    { unfold copies. cbn [kind_attrs]. constructor; [split; [reflexivity|exact Hv]|].
      constructor; [split; [reflexivity|destruct mx; reflexivity]|].
      constructor; [split; [reflexivity|destruct mn; reflexivity]|].
      constructor; [split; reflexivity|constructor]. }
    split; [unfold kalike; cbn; rewrite Hva; reflexivity|]. split; [reflexivity|]. cbn. intros g [<-|[]]; assumption.
  - assert (Ho : dcopy E cl (opt (fun l => VList (map VStr l)) o) = Ok (opt (fun l => VList (map VStr l)) o)).
    { apply dcopy_fieldless. destruct o; [apply fieldless_strs|reflexivity]. }
    destruct d as [l|on vs]; cbn [subfields sdef_fields] in H.
    + destruct (copy_struct l H) as [l' [Hl [Hm Hs]]]. exists (KStructure (SPlain l') s o). split.
      { unfold copies. cbn [kind_attrs]. constructor; [split; [reflexivity|exact Ho]|].
        constructor; [split; reflexivity|]. constructor; [split; reflexivity|].
        constructor; [split; [reflexivity|exact Hl]|constructor]. }
      split; [|split; [reflexivity|exact Hs]]. unfold kalike. cbn. do 2 f_equal. exact Hm.
    + destruct (H on) as [on' [Hon [Hona Hons]]]; [left; reflexivity|].
      destruct (copy_variants vs) as [vs' [Hv [Hm Hs]]]; [intros g Hg; apply H; right; exact Hg|].
      exists (KStructure (SPoly on' vs') s o). split.
      { unfold copies. cbn [kind_attrs]. constructor; [split; [reflexivity|exact Ho]|].
        constructor; [split; [reflexivity|exact Hon]|]. constructor; [split; reflexivity|].
        constructor; [split; [reflexivity|exact Hv]|constructor]. }
      split; [|split; [reflexivity|cbn; intros g [<-|Hg]; auto]].
      unfold kalike. cbn. do 2 f_equal; [exact Hona|exact Hm].
  - cbn [subfields] in H. destruct (copy_fields l H) as [l' [Hl [Hm Hs]]]. exists (KTuple l'). split.
    { unfold copies. cbn [kind_attrs]. constructor; [split; [reflexivity|]|constructor]. cbn [snd]. rewrite dcopy_tuple, Hl. reflexivity. }
    split; [unfold kalike; cbn; rewrite Hm; reflexivity|]. split; [reflexivity|exact Hs].
  - cbn [subfields] in H. destruct (copy_fields l H) as [l' [Hl [Hm Hs]]]. exists (KUnion l'). split.
    { unfold copies. cbn [kind_attrs]. constructor; [split; [reflexivity|]|constructor]. cbn [snd]. rewrite dcopy_tuple, Hl. reflexivity. }
    split; [unfold kalike; cbn; rewrite Hm; reflexivity|]. split; [reflexivity|exact Hs].
Qed.

(** ** The attributes of a field make its constructor produce it *)

Lemma find_cls_name c : find_cls (cls_name c) = Some c.
Proof. destruct c; reflexivity. Qed.

Lemma named_same s f : has_name (s, f) -> named s f = f.
Proof.
  destruct f as [i|p k]; [reflexivity|]. unfold has_name. cbn. intros [Hn He]. destruct p as [[[|c n]|]]; cbn in *.
  - rewrite (He eq_refl). reflexivity.
  - reflexivity.
  - contradiction Hn. reflexivity.
Qed.

Lemma structure_items_val l : Forall has_name l -> structure_items (struct_val l) = Ok l.
Proof.
  unfold structure_items, struct_val. cbn [as_dict]. rewrite each_map. intros H. apply each_id. intros [s f] Hi.
  cbn. rewrite named_same; [reflexivity|]. rewrite Forall_forall in H. apply H, Hi.
Qed.

Lemma length_arg_val o : natural o -> length_arg (opt VInt o) = Ok o.
Proof. destruct o as [z|]; cbn; [|reflexivity]. intros H. apply Z.leb_le in H. rewrite H. reflexivity. Qed.

Lemma dt_arg_val utc o : in_zone (e_local E) utc o -> datetime_arg E utc (opt VDateTime o) = Ok o.
Proof.
  destruct o as [dt|]; [|reflexivity]. intros [Hz _]. cbn. unfold dt_normalize. rewrite Hz.
  destruct utc; reflexivity.
Qed.

Lemma fields_arg_val l : l <> [] -> fields_arg (VTuple (map VField l)) = Ok l.
Proof.
  destruct l as [|f l]; intros H; [contradiction|]. change (each field_arg (map VField (f :: l)) = Ok (f :: l)).
  rewrite each_map. apply each_id. reflexivity.
Qed.

Lemma aset_uf name c0 c l : aget name l = Some c0 -> alike c c0 -> map uf (aset name c l) = map uf l.
Proof.
  induction l as [|[s f] l IH]; cbn; [discriminate|]. intros Hg Ha. destruct (str_eqb_spec name s) as [-> |Hn].
  - injection Hg as ->. cbn. f_equal. unfold uf. cbn. f_equal. exact Ha.
  - cbn. f_equal. apply IH; assumption.
Qed.

Lemma aset_In {A} name (c : A) l g : In g (map snd (aset name c l)) -> g = c \/ In g (map snd l).
Proof.
  induction l as [|[s f] l IH]; cbn; [intros [<-|[]]; auto|]. destruct (str_eqb name s); cbn.
  - intros [<-|Hi]; auto.
  - intros [<-|Hi]; [auto|]. apply IH in Hi. destruct Hi; auto.
Qed.

Lemma kind_ok_attrs kw k :
  constructed_kind E k -> (forall g, In g (subfields k) -> sound E g) ->
  (forall key v, aget key (kind_attrs E k) = Some v -> aget key kw = Some v) ->
  aget $"generate_default" kw = None ->
  (forall on vs q kd s o i, k = KStructure (SPoly on vs) s o -> on = Fld q kd -> In i (map fst vs) ->
     exists c, cl on [($"constant", i)] = Ok c /\ alike c (Fld (with_constant q i) kd) /\ sound E c) ->
  exists k', kind_ok E cl kw k' /\ kalike k' k /\ cls_of k' = cls_of k /\ forall g, In g (subfields k') -> sound E g.
Proof.
  intros Hk Hs Hl Hgd Hpoly.
  assert (Hsame : kind_ok E cl kw k ->
    exists k', kind_ok E cl kw k' /\ kalike k' k /\ cls_of k' = cls_of k /\ forall g, In g (subfields k') -> sound E g).
  { intros H. exists k. repeat (split; [assumption || reflexivity|]). exact Hs. }
  assert (Ha : forall key v, aget key (kind_attrs E k) = Some v -> arg key kw = v).
  { intros key v Hv. unfold arg. rewrite (Hl _ _ Hv). reflexivity. }
  assert (Hf : forall key b, aget key (kind_attrs E k) = Some (VBool b) -> flag key kw = b /\ flag_on key kw = b).
  { intros key b Hb. unfold flag, flag_on, arg. rewrite (Hl _ _ Hb). destruct b; auto. }
  destruct k as [ |mn mx| |mn mx|mn mx utc|mn mx|vf|mu ex mn mx|l ig| |mn mx|mn mx|value key rk| |item mn mx u|d s o|vs
                 |pat mn mx st|mn mx|sg|l|l| ]; cbn [constructed_kind] in Hk;
    try (apply Hsame; exact I).
  - apply Hsame. cbn [kind_ok]. rewrite (Ha $"min_length" _ eq_refl), (Ha $"max_length" _ eq_refl). destruct Hk.
    split; apply length_arg_val; assumption.
  - apply Hsame. cbn [kind_ok]. rewrite (Ha $"minimum" _ eq_refl), (Ha $"maximum" _ eq_refl).
    destruct mn, mx; split; reflexivity.
  - apply Hsame. cbn [kind_ok]. rewrite (Ha $"minimum" _ eq_refl), (Ha $"maximum" _ eq_refl). destruct Hk.
    split; [apply (Hf $"utc" _ eq_refl)|]. split; apply dt_arg_val; assumption.
  - apply Hsame. cbn [kind_ok]. rewrite (Ha $"minimum" _ eq_refl), (Ha $"maximum" _ eq_refl).
    destruct mn, mx; split; reflexivity.
  - apply Hsame. cbn [kind_ok]. rewrite (Ha $"valid_fields" _ eq_refl). destruct Hk as [Hi Hc].
    destruct vf as [[|x l]|]; [contradiction Hi; reflexivity| |reflexivity].
    cbn [opt]. unfold valid_fields_arg. cbn [truthy map negb]. rewrite <- (map_cons VStr), each_map.
    rewrite each_id; [reflexivity|]. intros y Hy. destruct (Hc _ y eq_refl Hy) as [c <-]. rewrite find_cls_name. reflexivity.
  - apply Hsame. cbn [kind_ok]. rewrite (Ha $"min_length" _ eq_refl), (Ha $"max_length" _ eq_refl).
    destruct Hk as [H1 [H2 H3]]. split; [apply (Hf $"multiple" _ eq_refl)|]. split; [apply (Hf $"extended" _ eq_refl)|].
    split; [destruct mu, ex; try reflexivity; exfalso; apply H3; auto|]. split; apply length_arg_val; assumption.
  - apply Hsame. cbn [kind_ok]. rewrite (Ha $"enumeration" _ eq_refl), (Ha $"ignored_values" _ eq_refl).
    destruct Hk as [[H1 _] H2]. cbn [enumeration_arg]. unfold natives. rewrite H1. split; [reflexivity|].
    destruct ig as [i|]; [|reflexivity]. cbn. unfold natives. destruct (H2 i eq_refl) as [-> _]. reflexivity.
  - apply Hsame. cbn [kind_ok]. rewrite (Ha $"minimum" _ eq_refl), (Ha $"maximum" _ eq_refl).
    destruct mn, mx; split; reflexivity.
  - apply Hsame. cbn [kind_ok]. rewrite (Ha $"minimum" _ eq_refl), (Ha $"maximum" _ eq_refl).
    destruct mn, mx; split; reflexivity.
  - apply Hsame. cbn [kind_ok]. rewrite (Ha $"value" _ eq_refl), (Ha $"key" _ eq_refl), (Ha $"required_keys" _ eq_refl).
    split; [reflexivity|]. split; [|destruct rk; reflexivity]. destruct key as [g|]; [|reflexivity].
    destruct (sound_inv E g) as [p [kk ->]]; [apply Hs; right; left; reflexivity|reflexivity].
  - apply Hsame. cbn [kind_ok]. rewrite (Ha $"min_length" _ eq_refl), (Ha $"max_length" _ eq_refl), (Ha $"item" _ eq_refl).
    destruct Hk. split; [reflexivity|]. split; [apply length_arg_val; assumption|]. split; [apply length_arg_val; assumption|].
    apply (Hf $"unique" _ eq_refl).
  - destruct Hk as [Ho Hd].
    assert (Hko : key_order_arg (arg $"key_order" kw) = Ok o).
    { rewrite (Ha $"key_order" _ eq_refl). destruct o as [[|x l]|]; [contradiction Ho; reflexivity| |reflexivity].
      cbn [opt map]. unfold key_order_arg. rewrite <- (map_cons VStr), each_map. rewrite each_id; reflexivity. }
    assert (Hst : flag_on $"strict" kw = s) by apply (Hf $"strict" _ eq_refl).
    assert (Hgn : truthy (arg $"generate_default" kw) = false) by (unfold arg; rewrite Hgd; reflexivity).
    destruct d as [l|on vs].
    + apply Hsame. cbn [kind_ok]. repeat (split; [assumption|]).
      rewrite (Ha $"polymorphic_on" _ eq_refl), (Ha $"structure" _ eq_refl). split; [reflexivity|].
      apply structure_items_val, Hd.
    + destruct Hd as [q [kd [name [-> [Hn [Hr HF]]]]]].
      assert (Hv : exists vs', each (fun kv => do fields <- structure_items (snd kv);
                                  do c <- cl (Fld q kd) [($"constant", fst kv)];
                                  Ok (fst kv, aset name c fields))
                     (map (fun vl => (fst vl, struct_val (snd vl))) vs) = Ok vs'
                   /\ map uv vs' = map uv vs
                   /\ forall g, In g (flat_map (fun vl => map snd (snd vl)) vs') -> sound E g).
      { assert (Hc : forall i, In i (map fst vs) -> exists c, cl (Fld q kd) [($"constant", i)] = Ok c
                       /\ alike c (Fld (with_constant q i) kd) /\ sound E c).
        { intros i Hi. apply (Hpoly _ _ q kd s o i eq_refl eq_refl Hi). }
        assert (Hg : forall g, In g (flat_map (fun vl => map snd (snd vl)) vs) -> sound E g).
        { intros g Hg. apply Hs. right. exact Hg. }
        clear -HF Hc Hg. induction vs as [|[i l] vs IH]; [exists []; split; [reflexivity|split; [reflexivity|intros ? []]]|].
        inversion HF as [|? ? [_ [_ [Hnm [c0 [Hc0 Hca]]]]] HF']; subst. cbn [fst snd] in *.
        destruct IH as [vs' [H1 [H2 H3]]]; [exact HF'|intros j Hj; apply Hc; right; exact Hj| |].
        { intros g Hi. apply Hg. cbn. apply in_or_app. right. exact Hi. }
        destruct (Hc i) as [c [Hc1 [Hc2 Hc3]]]; [left; reflexivity|].
        exists ((i, aset name c l) :: vs'). cbn [map each fst snd]. rewrite structure_items_val by exact Hnm. cbn [bind].
        rewrite Hc1. cbn [bind]. rewrite H1. cbn [bind]. split; [reflexivity|]. split.
        - unfold uv at 1 3. cbn [fst snd]. f_equal; [|exact H2]. f_equal. apply (aset_uf name c0); [exact Hc0|].
          apply (alike_trans _ _ _ Hc2), alike_sym, Hca.
        - intros g Hi. cbn in Hi. apply in_app_or in Hi. destruct Hi as [Hi|Hi]; [|auto].
          apply aset_In in Hi. destruct Hi as [-> |Hi]; [exact Hc3|]. apply Hg. cbn. apply in_or_app. auto. }
      destruct Hv as [vs' [Hv [Hm Hsv]]]. exists (KStructure (SPoly (Fld q kd) vs') s o). split.
      { cbn [kind_ok]. repeat (split; [assumption|]).
        exists (map (fun vl => (fst vl, struct_val (snd vl))) vs), q, kd, name.
        rewrite (Ha $"structure" _ eq_refl), (Ha $"polymorphic_on" _ eq_refl).
        split; [reflexivity|]. split; [|repeat (split; [assumption || reflexivity|]); exact Hv].
        apply sget_None. intros v Hi. apply in_map_iff in Hi. destruct Hi as [vd [He Hi]].
        rewrite Forall_forall in HF. destruct (HF _ Hi) as [Hne _]. apply Hne. congruence. }
      split; [|split; [reflexivity|]].
      { unfold kalike. cbn. do 2 f_equal. exact Hm. }
      cbn. intros g [<-|Hg]; [apply Hs; left; reflexivity|apply Hsv, Hg].
  - apply Hsame. cbn [kind_ok]. rewrite (Ha $"valid_surrogates" _ eq_refl).
    destruct vs as [[|x l]|]; [contradiction Hk; reflexivity| |reflexivity].
    cbn [opt]. unfold valid_surrogates_arg. cbn [truthy map negb py_iter]. rewrite <- (map_cons VStr), each_map.
    rewrite each_id; reflexivity.
  - apply Hsame. cbn [kind_ok].
    rewrite (Ha $"min_length" _ eq_refl), (Ha $"max_length" _ eq_refl), (Ha $"pattern" _ eq_refl).
    destruct Hk. split; [destruct pat; reflexivity|]. split; [apply length_arg_val; assumption|].
    split; [apply length_arg_val; assumption|]. apply (Hf $"strip" _ eq_refl).
  - apply Hsame. cbn [kind_ok]. rewrite (Ha $"minimum" _ eq_refl), (Ha $"maximum" _ eq_refl).
    destruct mn, mx; split; reflexivity.
  - apply Hsame. cbn [kind_ok]. rewrite (Ha $"segments" _ eq_refl). destruct sg; reflexivity.
  - apply Hsame. cbn [kind_ok]. rewrite (Ha $"values" _ eq_refl). apply fields_arg_val, Hk.
  - apply Hsame. cbn [kind_ok]. rewrite (Ha $"fields" _ eq_refl). apply fields_arg_val, Hk.
Qed.

End Copy.

(** ** Cloning *)

Definition commons : list str :=
  [$"name"; $"nonnull"; $"required"; $"ignore_null"; $"default"; $"constant"; $"title"; $"description"; $"notes"].

Lemma common_key kv : common_parameter kv -> In (fst kv) commons.
Proof.
  destruct kv as [k v]. unfold common_parameter. cbn [fst snd]. unfold commons.
  destruct v; cbn [In]; intros H;
    repeat match type of H with _ \/ _ => destruct H as [H|H] | _ /\ _ => destruct H as [H _] end;
    subst; try contradiction; auto 10.
Qed.

Lemma kind_parameter_key k kv : kind_parameter k kv ->
  smem (fst kv) (class_args (cls_of k)) = true /\ smem (fst kv) base_args = false /\ smem (fst kv) commons = false
  /\ smem (fst kv) [$"aspects"; $"timezone"; $"representation"; $"utc"; $"generate_default"; []] = false.
Proof.
  destruct kv as [key v]. unfold kind_parameter. destruct k; cbn [In]; intros H; try contradiction;
    repeat match type of H with _ \/ _ => destruct H as [H|H] | _ /\ _ => destruct H as [H _] end; subst; try contradiction;
    repeat split; reflexivity.
Qed.

Lemma common_absent k kw key : Forall (parameter k) kw -> smem key commons = false ->
  smem key base_args = true \/ smem key [$"aspects"; $"timezone"; $"representation"; $"utc"; $"generate_default"; []] = true ->
  aget key kw = None.
Proof.
  intros H Hk Hb. destruct (aget key kw) as [v|] eqn:Hg; [|reflexivity]. apply aget_In in Hg.
  rewrite Forall_forall in H. apply H in Hg. destruct Hg as [Hg|Hg].
  - apply common_key in Hg. cbn [fst] in Hg. apply smem_false in Hk. contradiction.
  - apply kind_parameter_key in Hg. cbn [fst] in Hg. destruct Hg as [_ [H1 [H2 H3]]]. exfalso. destruct Hb; congruence.
Qed.

Lemma common_value k kw key v : Forall (parameter k) kw -> aget key kw = Some v -> smem key commons = true ->
  common_parameter (key, v).
Proof.
  intros H Hg Hk. apply aget_In in Hg. rewrite Forall_forall in H. apply H in Hg. destruct Hg as [Hg|Hg]; [exact Hg|].
  apply kind_parameter_key in Hg. cbn [fst] in Hg. destruct Hg as [_ [_ [Hg _]]]. congruence.
Qed.

Lemma common_bool k kw key v : Forall (parameter k) kw -> aget key kw = Some v ->
  In key [$"nonnull"; $"required"; $"ignore_null"] -> exists b, v = VBool b.
Proof.
  intros H Hg Hk. assert (Hm : smem key commons = true) by (cbn [In] in Hk; destruct Hk as [<-|[<-|[<-|[]]]]; reflexivity).
  apply (common_value _ _ _ _ H) in Hg; [|exact Hm]. unfold common_parameter in Hg. cbn [fst snd] in Hg.
  destruct v; [|eauto|..]; exfalso; cbn [In] in Hk;
    destruct Hk as [<-|[<-|[<-|[]]]]; cbn in Hg;
    repeat match type of Hg with _ \/ _ => destruct Hg as [Hg|Hg] | _ /\ _ => destruct Hg as [Hg _] end;
    try discriminate; contradiction.
Qed.

Lemma common_name k kw v : Forall (parameter k) kw -> aget $"name" kw = Some v -> v = VNone \/ exists s, v = VStr s.
Proof.
  intros H Hg. apply (common_value _ _ _ _ H) in Hg; [|reflexivity]. unfold common_parameter in Hg. cbn [fst snd] in Hg.
  destruct v; eauto; exfalso; cbn in Hg;
    repeat match type of Hg with _ \/ _ => destruct Hg as [Hg|Hg] | _ /\ _ => destruct Hg as [Hg _] end;
    try discriminate; contradiction.
Qed.

Lemma common_fieldless k kw key v : Forall (parameter k) kw -> aget key kw = Some v ->
  smem key commons = true -> key <> $"default" -> fieldless v = true.
Proof.
  intros H Hg Hm Hk. apply (common_value _ _ _ _ H) in Hg; [|exact Hm]. unfold common_parameter in Hg. cbn [fst snd] in Hg.
  destruct v; try reflexivity; destruct Hg as [Hg|[_ Hg]]; congruence.
Qed.

Lemma kind_parameter_value k kw key v : Forall (parameter k) kw -> aget key kw = Some v -> smem key commons = false ->
  kind_parameter k (key, v).
Proof.
  intros H Hg Hk. apply aget_In in Hg. rewrite Forall_forall in H. apply H in Hg. destruct Hg as [Hg|Hg]; [|exact Hg].
  apply common_key in Hg. cbn [fst] in Hg. apply smem_false in Hk. contradiction.
Qed.

Ltac split_ors H := repeat match type of H with _ \/ _ => destruct H as [H|H] | _ /\ _ => destruct H as [? H]
                                             | exists _, _ => destruct H as [? H] end.
Lemma rekind_attrs E k kw : Forall (parameter k) kw ->
  forall key v, aget key (kind_attrs E (rekind kw k)) = Some v ->
    match aget key kw with Some w => w = v | None => aget key (kind_attrs E k) = Some v end.
Proof.
  intros H key v Hg.
  assert (Hp : forall w, aget key kw = Some w -> smem key commons = false -> kind_parameter k (key, w)).
  { intros w Hw. apply (kind_parameter_value _ _ _ _ H Hw). }
  destruct k; cbn [rekind kind_attrs aget] in Hg |- *; try discriminate;
    repeat (match type of Hg with context [str_eqb key ?s] => destruct (str_eqb_spec key s) as [-> |?]; [injection Hg as <-|] end);
    try discriminate; unfold given;
    match goal with |- match ?a with _ => _ end => destruct a as [w|] eqn:Hw end; try reflexivity;
    specialize (Hp w eq_refl eq_refl); cbn in Hp; split_ors Hp; subst; try discriminate; try contradiction; try reflexivity;
    exfalso; repeat match goal with Hx : _ \/ _ |- _ => destruct Hx as [Hx|Hx]; try discriminate end; contradiction.
Qed.

Lemma given_natural k kw key o : Forall (parameter k) kw -> natural o -> key = $"min_length" \/ key = $"max_length" ->
  natural (given key kw read_int o).
Proof.
  intros H Ho Hkey. unfold given. destruct (aget key kw) as [v|] eqn:Hg; [|exact Ho].
  apply (kind_parameter_value _ _ _ _ H) in Hg; [|destruct Hkey; subst; reflexivity].
  destruct Hkey; subst key; destruct k; cbn in Hg; try contradiction; destruct v; try exact I; split_ors Hg; subst;
    try discriminate; try contradiction; cbn; try assumption;
    first [match goal with H : VInt _ = VInt _ |- _ => injection H as <-; assumption end
          | exfalso; repeat match goal with Hx : _ \/ _ |- _ => destruct Hx as [Hx|Hx]; try discriminate end; contradiction].
Qed.

Lemma rekind_constructed E k kw : Forall (parameter k) kw -> constructed_kind E k -> constructed_kind E (rekind kw k).
Proof.
  intros H Hk. destruct k; cbn [rekind constructed_kind] in *; try exact Hk.
  - destruct Hk. split; apply (given_natural _ _ _ _ H); auto.
  - destruct Hk as [? [? ?]]. split; [|split; [|assumption]]; apply (given_natural _ _ _ _ H); auto.
  - destruct Hk. split; apply (given_natural _ _ _ _ H); auto.
  - destruct Hk. split; apply (given_natural _ _ _ _ H); auto.
Qed.

Lemma rekind_sub kw k : subfields (rekind kw k) = subfields k.
Proof. destruct k; reflexivity. Qed.
Lemma rekind_cls kw k : cls_of (rekind kw k) = cls_of k.
Proof. destruct k; reflexivity. Qed.
Lemma rekind_kalike kw a b : kalike a b -> kalike (rekind kw a) (rekind kw b).
Proof.
  unfold kalike. destruct a; destruct b; try discriminate; cbn; intros H; try exact H;
    (injection H; intros; subst; reflexivity) || (injection H as H1 H2 H3; subst; try rewrite H1; reflexivity)
      || (injection H; intros; subst; congruence).
Qed.
Lemma kind_parameter_alike a b kv : kalike a b -> kind_parameter b kv -> kind_parameter a kv.
Proof. unfold kalike. destruct a; destruct b; try discriminate; intros _ H; exact H. Qed.

Lemma kind_keys E k key v : In (key, v) (kind_attrs E k) ->
  smem key commons = false /\ smem key base_args = false /\ key <> [] /\
  (smem key (class_args (cls_of k)) = true \/ fieldless v = true).
Proof.
  destruct k; cbn [kind_attrs In]; intros H;
    repeat (destruct H as [H|H]; [injection H as <- <-; cbn; repeat split; auto; discriminate|]); contradiction.
Qed.

Lemma replaced_nil p : replaced [] p = p.
Proof. destruct p; reflexivity. Qed.

Lemma replaced_constant p v : replaced [($"constant", v)] p = with_constant p v.
Proof. reflexivity. Qed.

Lemma copies_get E cl k k' key : copies E cl k k' ->
  option_map (copied E cl) (aget key (kind_attrs E k)) = aget key (kind_attrs E k').
Proof.
  unfold copies. generalize (kind_attrs E k) (kind_attrs E k'). intros l l' H.
  induction H as [|[a v] [b w] l l' [Hf Hv] Hl IH]; [reflexivity|]. cbn in *. subst b.
  destruct (str_eqb key a); [|exact IH]. cbn. unfold copied. rewrite Hv. reflexivity.
Qed.

Lemma fieldless_strs_values l : forallb (fun kv => fieldless (snd kv)) l = true -> fieldless (VDict false (strs l)) = true.
Proof. cbn. unfold strs. induction l as [|[a b] l IH]; cbn; [reflexivity|]. intros H. apply andb_prop in H. destruct H as [-> H]. apply IH, H. Qed.

Lemma rekind_nil k : rekind [] k = k.
Proof. destruct k; reflexivity. Qed.

Lemma rekind_poly kw k on vs s o : rekind kw k = KStructure (SPoly on vs) s o -> exists s', k = KStructure (SPoly on vs) s' o.
Proof. destruct k; try discriminate. cbn. intros H. injection H as -> <- ->. eauto. Qed.

Lemma rekind_const i k : rekind [($"constant", i)] k = k.
Proof. destruct k; reflexivity. Qed.

Lemma clone_ok E n : forall p k kw, within n (Fld p k) -> sound E (Fld p k) -> Forall (parameter k) kw ->
  exists g, clone E n (Fld p k) kw = Ok g /\ alike g (Fld (replaced kw p) (rekind kw k)) /\ sound E g.
Proof.
  induction n as [|m IH]; intros p k kw Hw Hs Hc; [contradiction|].
  apply sound_Fld in Hs. destruct Hs as [[Hp1 [Hp2 [Hp3 [Hp4 Hp5]]]] [Hk Hsub]]. cbn [within] in Hw.
  set (cl := clone E m).
  assert (Hcopy : forall g, In g (subfields k) -> copyable E cl g).
  { intros g Hg. destruct (sound_inv E g (Hsub g Hg)) as [q [kq ->]].
    destruct (IH q kq [] (Hw _ Hg) (Hsub _ Hg) (Forall_nil _)) as [g' [H1 [H2 H3]]]. rewrite replaced_nil, rekind_nil in H2.
    exists g'. split; [|auto]. cbn [dcopy]. fold cl in H1. rewrite H1. reflexivity. }
  destruct (copy_kind E cl k Hcopy Hk) as [k1 [Hcp [Hka [Hcls Hsub1]]]].
  cbn [clone].
  set (kw1 := match aget $"default" kw with Some _ => kw | None => kw ++ [($"default", p_default p)] end).
  assert (Hkw1 : forall key, aget key kw1 = match aget key kw with
                   | Some v => Some v
                   | None => if str_eqb key $"default" then Some (p_default p) else None end).
  { intros key. unfold kw1. destruct (aget $"default" kw) eqn:Hd.
    - destruct (aget key kw) eqn:Hg; [reflexivity|]. destruct (str_eqb_spec key $"default"); [congruence|reflexivity].
    - rewrite aget_app. destruct (aget key kw); [reflexivity|]. cbn [aget]. destruct (str_eqb key $"default"); reflexivity. }
  assert (Hin1 : forall kv, In kv kw1 -> In (fst kv) commons \/ kind_parameter k kv).
  { assert (Hx : forall kv, In kv kw -> In (fst kv) commons \/ kind_parameter k kv).
    { intros kv Hi. rewrite Forall_forall in Hc. destruct (Hc _ Hi) as [Hx|Hx]; [left; apply common_key, Hx|right; exact Hx]. }
    intros kv Hi. unfold kw1 in Hi. destruct (aget $"default" kw); [apply Hx, Hi|].
    apply in_app_or in Hi. destruct Hi as [Hi|[<-|[]]]; [apply Hx, Hi|left; cbn; auto 10]. }
  assert (Hc1 : Forall (parameter k1) kw).
  { eapply Forall_impl; [|exact Hc]. intros kv [Hx|Hx]; [left; exact Hx|right; apply (kind_parameter_alike _ _ _ Hka Hx)]. }
  pose (base := [($"aspects", VDict false (strs (p_aspects p))); ($"constant", p_constant p);
   ($"default", p_default p); ($"description", p_description p);
   ($"extractor", callee (p_extractor p)); ($"ignore_null", VBool (p_ignore_null p));
   ($"instantiator", callee (p_instantiator p)); ($"name", opt VStr (p_name p));
   ($"notes", p_notes p); ($"nonnull", VBool (p_nonnull p)); ($"required", VBool (p_required p));
   ($"title", p_title p)] ++ match p_preprocessor p with Some i => [($"preprocessor", VObj i [])] | None => [] end).
  assert (Hattrs : attrs E p k = base ++ kind_attrs E k) by (unfold attrs, base; rewrite <- app_assoc; reflexivity).
  assert (Hbase : forall kv, In kv base -> fst kv = $"default" \/ fieldless (snd kv) = true).
  { intros kv Hi. unfold base in Hi. apply in_app_or in Hi. cbn [In] in Hi. destruct Hi as [Hi|Hi].
    - repeat (destruct Hi as [Hi|Hi];
              [subst kv; cbn [fst snd];
               first [left; reflexivity | right; first [reflexivity | assumption | apply fieldless_strs_values, Hp5
                 | match goal with |- context [opt _ ?o] => destruct o; reflexivity end
                 | match goal with |- context [callee ?o] => destruct o; reflexivity end]]|]).
      contradiction.
    - destruct (p_preprocessor p); [|contradiction]. destruct Hi as [<-|[]]. right. reflexivity. }
  assert (Hbkeys : forall kv, In kv base -> smem (fst kv) base_args = true).
  { intros kv Hi. unfold base in Hi. apply in_app_or in Hi. cbn [In] in Hi. destruct Hi as [Hi|Hi].
    - repeat (destruct Hi as [Hi|Hi]; [subst kv; reflexivity|]). contradiction.
    - destruct (p_preprocessor p); [|contradiction]. destruct Hi as [<-|[]]. reflexivity. }
  destruct (copy_attrs_get E cl (attrs E p k) kw1) as [kw2 [Hkw2 [Hget Hin2]]].
  { rewrite Hattrs. apply Forall_app. split.
    - rewrite Forall_forall. intros kv Hi Hn. destruct (Hbase kv Hi) as [Hd|Hf].
      + rewrite Hkw1, Hd in Hn. cbn in Hn. destruct (aget _ kw); discriminate.
      + exists (snd kv). apply dcopy_fieldless, Hf.
    - unfold copies in Hcp. clear -Hcp. induction Hcp as [|a b l l' [_ Hv] Hl IH]; constructor; [|exact IH].
      intros _. eauto. }
  fold cl. rewrite Hkw2. cbn [bind].
  (* lookups *)
  assert (Hgb : forall key v, aget key base = Some v -> fieldless v = true \/ key = $"default").
  { intros key v Hg. apply aget_In in Hg. destruct (Hbase _ Hg); auto. }
  assert (Hget' : forall key, aget key kw2 = match aget key kw with
            | Some v => Some v
            | None => match aget key base with Some v => Some v | None => aget key (kind_attrs E k1) end end).
  { intros key. rewrite Hget, Hkw1. destruct (aget key kw) as [v|] eqn:Hg; [reflexivity|].
    destruct (str_eqb_spec key $"default") as [-> |Hn]; [reflexivity|].
    rewrite Hattrs, aget_app. destruct (aget key base) as [v|] eqn:Hb.
    - cbn. destruct (Hgb _ _ Hb) as [Hf|]; [|contradiction]. rewrite copied_fieldless by exact Hf. reflexivity.
    - apply copies_get, Hcp. }
  assert (Hkind : forall key v, aget key (kind_attrs E (rekind kw k1)) = Some v -> aget key kw2 = Some v).
  { intros key v Hg. rewrite Hget'. destruct (kind_keys E _ key v (aget_In _ _ _ Hg)) as [Ha [Hb _]].
    apply (rekind_attrs E k1 kw Hc1) in Hg. destruct (aget key kw) as [w|]; [congruence|].
    destruct (aget key base) as [w|] eqn:Hbs; [|exact Hg].
    apply aget_In, Hbkeys in Hbs. cbn [fst] in Hbs. congruence. }
  assert (Hnone : forall key, smem key commons = false ->
            smem key base_args = true \/ smem key [$"aspects"; $"timezone"; $"representation"; $"utc"; $"generate_default"; []] = true ->
            aget key base = None ->
            (forall v, ~ In (key, v) (kind_attrs E k1)) -> aget key kw2 = None).
  { intros key H1 H0 H2 H3. rewrite Hget', (common_absent k kw key Hc H1 H0), H2.
    destruct (aget key (kind_attrs E k1)) eqn:Hg; [|reflexivity]. apply aget_In in Hg. exfalso. apply (H3 _ Hg). }
  assert (Hnbase : forall key, smem key base_args = true -> forall v, ~ In (key, v) (kind_attrs E k1)).
  { intros key H1 v Hi. apply kind_keys in Hi. destruct Hi as [_ [Hi _]]. congruence. }
  assert (Hk1 : constructed_kind E k1) by apply (constructed_kind_alike E k1 k Hka Hk).
  assert (Hk1r : constructed_kind E (rekind kw k1)) by apply (rekind_constructed E k1 kw Hc1 Hk1).
  (* bounds *)
  assert (Hrz : rezone_args E k kw kw2 = Ok kw2).
  { destruct k; try reflexivity. unfold rezone_args. apply each_id. intros kv Hi.
    destruct ((str_eqb (fst kv) $"minimum" || str_eqb (fst kv) $"maximum")
              && match aget (fst kv) kw with None => true | Some _ => false end) eqn:Hb; [|reflexivity].
    apply andb_prop in Hb. destruct Hb as [Hb _].
    assert (Hu : flag $"utc" kw2 = utc).
    { unfold flag, arg. rewrite (Hkind $"utc" (VBool utc)); [reflexivity|].
      destruct k1; try discriminate. unfold kalike in Hka. cbn in Hka. injection Hka as -> -> ->. reflexivity. }
    rewrite Hu. cbn [constructed_kind] in Hk. destruct Hk as [Hz1 Hz2].
    assert (Hrez : forall o, in_zone (e_local E) utc o -> rezone E utc (opt VDateTime o) = Ok (opt VDateTime o)).
    { intros [dt|] Hz; [|reflexivity]. cbn in Hz. destruct Hz as [Hz3 Hz4]. cbn. rewrite Hz3, Hz4. reflexivity. }
    destruct (Hin2 kv Hi) as [Hi1|[v [Hi1 Hv]]].
    { apply Hin1 in Hi1. destruct Hi1 as [Hi1|Hi1]; [|destruct kv; contradiction]. exfalso. destruct kv as [key v]. cbn [fst] in *.
      destruct (str_eqb_spec key $"minimum") as [-> |]; [|destruct (str_eqb_spec key $"maximum") as [-> |]; [|discriminate]];
        cbn in Hi1; repeat (destruct Hi1 as [Hi1|Hi1]; [discriminate|]); contradiction. }
    rewrite Hattrs in Hi1. apply in_app_or in Hi1. destruct Hi1 as [Hi1|Hi1].
    { apply Hbkeys in Hi1. exfalso. destruct kv as [key w]. cbn [fst] in *.
      destruct (str_eqb_spec key $"minimum") as [-> |]; [|destruct (str_eqb_spec key $"maximum") as [-> |]; [|discriminate]];
        discriminate. }
    destruct kv as [key w]. cbn [fst snd] in *. subst w. cbn [kind_attrs In] in Hi1.
    destruct Hi1 as [Hi1|[Hi1|[Hi1|[Hi1|[]]]]]; injection Hi1 as <- <-; try discriminate;
      rewrite copied_fieldless by (match goal with |- fieldless (opt _ ?o) = true => destruct o; reflexivity end);
      rewrite Hrez by assumption; reflexivity. }
  rewrite Hrz. cbn [bind].
  (* kind *)
  assert (Hsub1r : forall g, In g (subfields (rekind kw k1)) -> sound E g) by (rewrite rekind_sub; exact Hsub1).
  destruct (kind_ok_attrs E cl kw2 (rekind kw k1) Hk1r Hsub1r Hkind) as [k2 [Hok [Hka2 [Hcls2 Hsub2]]]].
  { apply Hnone; [reflexivity|right; reflexivity|unfold base; destruct (p_preprocessor p); reflexivity|].
    intros v Hi. destruct k1; cbn in Hi; repeat (destruct Hi as [Hi|Hi]; [discriminate|]); contradiction. }
  { intros on vs q kd s o i Hpo -> Hi. apply rekind_poly in Hpo. destruct Hpo as [s' ->]. clear s. rename s' into s.
    assert (Hon : In (Fld q kd) (subfields (KStructure (SPoly (Fld q kd) vs) s o : kind))) by (left; reflexivity).
    destruct (IH q kd [($"constant", i)]) as [c [H1 [H2 H3]]]; [|apply Hsub1; exact Hon| |exists c; rewrite replaced_constant in H2; split; [exact H1|split; [|exact H3]]; rewrite <- (rekind_const i kd); exact H2].
    - destruct (kalike_sub _ _ _ Hka Hon) as [h [Hh1 Hh2]]. apply (within_alike _ _ h Hh2). apply Hw, Hh1.
    - constructor; [|constructor]. left. cbn [constructed_kind] in Hk1. destruct Hk1 as [_ [q' [kd' [name [_ [_ [_ HF]]]]]]].
      apply in_map_iff in Hi. destruct Hi as [vd [<- Hi]]. rewrite Forall_forall in HF. destruct (HF _ Hi) as [_ [Hf _]].
      destruct (fst vd); cbn in Hf |- *; auto 10. }
  (* parameters *)
  assert (Hgiven : forall key v, aget key base = Some v -> aget key kw2 = Some (given key kw id v)).
  { intros key v Hg. rewrite Hget'. unfold given. destruct (aget key kw); [reflexivity|]. rewrite Hg. reflexivity. }
  assert (Hflag : forall key b, In key [$"nonnull"; $"required"; $"ignore_null"] -> aget key base = Some (VBool b) ->
            flag key kw2 = given key kw read_bool b).
  { intros key b Hi Hg. unfold flag, arg. rewrite (Hgiven _ _ Hg). unfold given. destruct (aget key kw) as [v|] eqn:Hv.
    - destruct (common_bool k kw key v Hc Hv Hi) as [b' ->]. destruct b'; reflexivity.
    - destruct b; reflexivity. }
  assert (Hbo : base_ok E kw2 (replaced kw p)).
  { constructor.
    - unfold arg. rewrite (Hgiven $"name" _ eq_refl). cbn [p_name replaced]. unfold given.
      destruct (aget $"name" kw) as [v|] eqn:Hv; [|destruct (p_name p); reflexivity].
      destruct (common_name k kw v Hc Hv) as [-> |[s ->]]; reflexivity.
    - apply Hflag; [left; reflexivity|reflexivity].
    - apply Hflag; [right; left; reflexivity|reflexivity].
    - apply Hflag; [right; right; left; reflexivity|reflexivity].
    - unfold flag, arg. rewrite Hnone; [reflexivity|reflexivity|left; reflexivity|unfold base; destruct (p_preprocessor p); reflexivity|].
      apply Hnbase. reflexivity.
    - unfold arg. rewrite (Hgiven $"default" _ eq_refl). reflexivity.
    - unfold arg. rewrite (Hgiven $"constant" _ eq_refl). reflexivity.
    - unfold arg. rewrite (Hgiven $"instantiator" _ eq_refl). unfold given.
      rewrite (common_absent k kw _ Hc) by (reflexivity || (left; reflexivity) || (right; reflexivity)). cbn. destruct (p_instantiator p); reflexivity.
    - unfold arg. rewrite (Hgiven $"extractor" _ eq_refl). unfold given.
      rewrite (common_absent k kw _ Hc) by (reflexivity || (left; reflexivity) || (right; reflexivity)). cbn. destruct (p_extractor p); reflexivity.
    - unfold arg. rewrite Hget', (common_absent k kw _ Hc) by (reflexivity || (left; reflexivity) || (right; reflexivity)). cbn [p_preprocessor replaced].
      destruct (p_preprocessor p) as [i|] eqn:Hpp; unfold base; rewrite ?Hpp; [reflexivity|].
      change (match aget $"preprocessor" (kind_attrs E k1) with Some v => v | None => VNone end = callee None).
      destruct (aget $"preprocessor" (kind_attrs E k1)) as [w|] eqn:Hg; [|reflexivity].
      apply aget_In in Hg. exfalso. apply (Hnbase $"preprocessor" eq_refl w Hg).
    - unfold arg. rewrite (Hgiven $"title" _ eq_refl). reflexivity.
    - unfold arg. rewrite (Hgiven $"description" _ eq_refl). reflexivity.
    - unfold arg. rewrite (Hgiven $"notes" _ eq_refl). reflexivity.
    - right. exists (p_aspects p). unfold arg. rewrite (Hgiven $"aspects" _ eq_refl). unfold given.
      rewrite (common_absent k kw _ Hc) by (reflexivity || (left; reflexivity) || (right; reflexivity)). reflexivity.
    - rewrite Forall_forall. intros kv Hi. destruct (Hin2 kv Hi) as [Hi1|[v [Hi1 Hv]]].
      + apply Hin1 in Hi1. intros He. destruct kv as [key w]. cbn [fst] in *. subst key.
        destruct Hi1 as [Hi1|Hi1]; [|apply kind_parameter_key in Hi1; destruct Hi1 as [_ [_ [_ Hi1]]]; discriminate]. cbn in Hi1.
        repeat (destruct Hi1 as [Hi1|Hi1]; [discriminate|]). contradiction.
      + rewrite Hattrs in Hi1. apply in_app_or in Hi1. destruct Hi1 as [Hi1|Hi1].
        * apply Hbkeys in Hi1. intros He. destruct kv as [key w]. cbn [fst] in *. subst key. discriminate.
        * apply kind_keys in Hi1. apply Hi1. }
  destruct (init_ok E cl kw2 (replaced kw p) k2 Hbo Hok) as [p' [Hi [[Ht [Hd [Hno Hb]]] Hasp]]].
  rewrite Hcls2, rekind_cls, Hcls in Hi, Hasp. exists (Fld p' k2). split; [exact Hi|].
  assert (Hkk : kalike k2 (rekind kw k)) by apply (kalike_trans _ _ _ Hka2 (rekind_kalike kw _ _ Hka)).
  split; [apply alike_Fld; auto|]. apply sound_Fld. split; [|split; [apply (constructed_kind_alike E _ _ Hkk (rekind_constructed E k kw Hc Hk))|exact Hsub2]].
  assert (Hfl : forall key v, smem key commons = true -> key <> $"default" -> fieldless v = true ->
                  fieldless (given key kw id v) = true).
  { intros key v Hm Hn Hv. unfold given. destruct (aget key kw) as [w|] eqn:Hg; [|exact Hv].
    apply (common_fieldless k kw key w Hc Hg Hm Hn). }
  unfold constructed_params. rewrite Ht, Hd, Hno.
  split; [apply (f_equal p_constant) in Hb; cbn [p_constant bare] in Hb; rewrite Hb; apply Hfl; [reflexivity|discriminate|exact Hp1]|].
  split; [apply Hfl; [reflexivity|discriminate|exact Hp2]|]. split; [apply Hfl; [reflexivity|discriminate|exact Hp3]|].
  split; [apply Hfl; [reflexivity|discriminate|exact Hp4]|]. apply Hasp.
  intros kv Hi1 Hkey. unfold others in Hi1. apply filter_In in Hi1. destruct Hi1 as [Hi1 Hcl].
  apply Bool.negb_true_iff in Hcl.
  destruct (Hin2 kv Hi1) as [Hx|[v [Hx Hv]]].
  - apply Hin1 in Hx. exfalso.
    destruct Hx as [Hx|Hx]; [|apply kind_parameter_key in Hx; destruct Hx as [Hx _]; congruence]. unfold commons in Hx. destruct kv as [key w]. cbn [fst snd] in *.
    cbn [In] in Hx. repeat (destruct Hx as [Hx|Hx]; [subst key; destruct Hkey; discriminate|]). contradiction.
  - rewrite Hv. rewrite Hattrs in Hx. apply in_app_or in Hx. destruct Hx as [Hx|Hx].
    + destruct (Hbase _ Hx) as [Hdf|Hf]; cbn [fst snd] in *; [|rewrite copied_fieldless; exact Hf].
      exfalso. rewrite Hdf in Hkey. destruct Hkey; discriminate.
    + apply kind_keys in Hx. destruct Hx as [_ [_ [_ [Hx|Hf]]]]; [congruence|]. rewrite copied_fieldless; exact Hf.
Qed.
