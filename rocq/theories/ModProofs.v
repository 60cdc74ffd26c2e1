(** * Importing and identifying objects (C83, C84). *)
(* @imports Spec Demo ModSpec *)
From Verif Require Import PyBaseFacts ProcessFacts Spec Demo ScalarProofs InProofs ModSpec.
Open Scope nat_scope.

Lemma getattrs_ok M attrs : forall m o, getattrs M m attrs = Ok o <-> leads M m attrs o.
Proof.
  induction attrs as [|a attrs IH]; intros m o; cbn.
  - split; [intros H; injection H as ->; constructor|intros H; inversion H; reflexivity].
  - destruct (mo_attr M m a) as [x|] eqn:Ha.
    + rewrite IH. split; [intros H; econstructor; eauto|]. intros H. inversion H; subst. congruence.
    + split; [discriminate|]. intros H. inversion H; subst. congruence.
Qed.
Lemma getattrs_outcome M attrs : forall m, (exists o, getattrs M m attrs = Ok o) \/ getattrs M m attrs = Raise (XPy ImportError).
Proof.
  induction attrs as [|a attrs IH]; intros m; cbn; [eauto|]. destruct (mo_attr M m a); [apply IH|auto].
Qed.

Lemma existsb_char c s : existsb (N.eqb c) s = true <-> In c s.
Proof.
  rewrite existsb_exists. split; [intros [x [H Hx]]; apply N.eqb_eq in Hx; subst; exact H|].
  intros H. exists c. split; [exact H|apply N.eqb_refl].
Qed.
Lemma existsb_char_false c s : existsb (N.eqb c) s = false <-> ~ In c s.
Proof. rewrite <- existsb_char. destruct (existsb (N.eqb c) s); intuition congruence. Qed.

Lemma rpartition_app a b : ~ In 46%N b -> rpartition (a ++ 46%N :: b) = (a, b).
Proof.
  intros Hb. induction a as [|c a IH]; cbn [app rpartition].
  - apply existsb_char_false in Hb. rewrite Hb. reflexivity.
  - assert (H : existsb (N.eqb 46) (a ++ 46%N :: b) = true) by (apply existsb_char, in_or_app; right; left; reflexivity).
    rewrite H, IH. reflexivity.
Qed.
Lemma rpartition_none b : ~ In 46%N b -> rpartition b = ([], b).
Proof.
  intros Hb. destruct b as [|c b]; [reflexivity|]. cbn [rpartition].
  assert (H : existsb (N.eqb 46) b = false) by (apply existsb_char_false; intros H; apply Hb; right; exact H).
  rewrite H. destruct (N.eqb_spec c 46); [subst; destruct Hb; left; reflexivity|reflexivity].
Qed.

Lemma dots_last l x : l <> [] -> dots (l ++ [x]) = dots l ++ 46%N :: x.
Proof.
  unfold dots. induction l as [|a l IH]; [congruence|]. intros _. destruct l as [|b l]; [reflexivity|].
  change ((a :: b :: l) ++ [x]) with (a :: ((b :: l) ++ [x])). rewrite join_cons by discriminate.
  rewrite IH by discriminate. rewrite (join_cons _ a) by discriminate. rewrite <- !app_assoc. reflexivity.
Qed.
Lemma rpartition_dots l x : ~ In 46%N x -> rpartition (dots (l ++ [x])) = (dots l, x).
Proof.
  intros Hx. destruct l as [|a l].
  - cbn. apply rpartition_none, Hx.
  - rewrite dots_last by discriminate. apply rpartition_app, Hx.
Qed.
Lemma dots_nonempty l r : dots l <> [] -> l ++ r <> [] /\ dots (l ++ r) <> [].
Proof.
  intros H. assert (Hl : l <> []) by (intros ->; apply H; reflexivity). split; [destruct l; [congruence|discriminate]|].
  revert l H Hl. induction r as [|x r IH]; intros l H Hl; [rewrite app_nil_r; exact H|].
  change (l ++ x :: r) with (l ++ ([x] ++ r)). rewrite app_assoc. apply IH.
  - rewrite dots_last by exact Hl. destruct (dots l); discriminate.
  - destruct l; discriminate.
Qed.

Definition found (M : modules) (names attrs : list str) (o : nat) : Prop :=
  exists mods last more m,
    names = mods ++ [last] ++ more /\ dots (mods ++ [last]) <> []
    /\ mo_import M (dots (mods ++ [last])) [last] = Imported m
    /\ leads M m (more ++ attrs) o
    /\ forall m1 x m2, more = m1 ++ [x] ++ m2 -> mo_import M (dots (mods ++ [last] ++ m1 ++ [x])) [x] = NoModule.

Lemma loop_ok M (names : list str) : forall fuel attrs o, Forall (fun x => ~ In 46%N x) names -> dots names <> [] -> length names <= fuel ->
  (import_loop M fuel (dots names) attrs = Ok o <-> found M names attrs o).
Proof.
  induction names as [|x names IH] using rev_ind; intros fuel attrs o Hs Hd Hf; [destruct (Hd eq_refl)|].
  rewrite app_length in Hf. cbn in Hf. destruct fuel as [|fuel]; [lia|].
  apply Forall_app in Hs. destruct Hs as [Hs Hx]. inversion Hx as [|? ? Hx' _]; subst. cbn [import_loop].
  rewrite (rpartition_dots _ _ Hx'). cbn [fst snd]. destruct (mo_import M (dots (names ++ [x])) [x]) as [m| | |] eqn:Hi.
  - rewrite getattrs_ok. split.
    + intros H. exists names, x, [], m. split; [reflexivity|]. split; [exact Hd|]. split; [exact Hi|]. split; [exact H|].
      intros m1 y m2 E. destruct m1; discriminate E.
    + intros [mods [last [more [m' [E [_ [Hi' [H Hno]]]]]]]].
      destruct more as [|y more _] using rev_ind.
      * rewrite app_nil_r in E. apply app_inj_tail in E. destruct E as [-> ->]. cbn [app] in *. congruence.
      * rewrite !app_assoc in E. apply app_inj_tail in E. destruct E as [-> ->].
        specialize (Hno more y [] ltac:(reflexivity)). rewrite <- !app_assoc in Hi. cbn [app] in Hi, Hno. congruence.
  - destruct (dots names) as [|c front] eqn:Ed.
    + split; [discriminate|]. intros [mods [last [more [m' [E [Hn [Hi' [H Hno]]]]]]]].
      exfalso. destruct more as [|y more _] using rev_ind.
      * rewrite app_nil_r in E. apply app_inj_tail in E. destruct E as [-> ->]. congruence.
      * rewrite !app_assoc in E. apply app_inj_tail in E. destruct E as [-> ->].
        apply (proj2 (dots_nonempty _ more Hn)). exact Ed.
    + rewrite <- Ed in IH |- *. rewrite IH; [|exact Hs|congruence|lia]. split.
      * intros [mods [last [more [m' [E [Hn [Hi' [H Hno]]]]]]]]. exists mods, last, (more ++ [x]), m'.
        split; [rewrite E, <- !app_assoc; reflexivity|]. split; [exact Hn|]. split; [exact Hi'|].
        split; [rewrite <- app_assoc; exact H|]. intros m1 y m2 E2.
        destruct m2 as [|z m2 _] using rev_ind.
        -- rewrite app_nil_r in E2. apply app_inj_tail in E2. destruct E2 as [<- <-]. subst names.
           rewrite <- !app_assoc in Hi. exact Hi.
        -- rewrite !app_assoc in E2. apply app_inj_tail in E2. destruct E2 as [-> ->]. apply (Hno m1 y m2). rewrite <- !app_assoc. reflexivity.
      * intros [mods [last [more [m' [E [Hn [Hi' [H Hno]]]]]]]]. destruct more as [|y more _] using rev_ind.
        -- rewrite app_nil_r in E. apply app_inj_tail in E. destruct E as [-> ->]. cbn [app] in *. congruence.
        -- rewrite !app_assoc in E. apply app_inj_tail in E. destruct E as [E ->].
           exists mods, last, more, m'. split; [rewrite E, <- app_assoc; reflexivity|]. split; [exact Hn|]. split; [exact Hi'|].
           split; [rewrite <- app_assoc in H; exact H|]. intros m1 z m2 ->. apply (Hno m1 z (m2 ++ [y])). rewrite <- !app_assoc. reflexivity.
  - split; [discriminate|]. intros [mods [last [more [m' [E [_ [Hi' [H Hno]]]]]]]]. exfalso.
    destruct more as [|y more _] using rev_ind.
    + rewrite app_nil_r in E. apply app_inj_tail in E. destruct E as [-> ->]. cbn [app] in *. congruence.
    + rewrite !app_assoc in E. apply app_inj_tail in E. destruct E as [-> ->].
      specialize (Hno more y [] ltac:(reflexivity)). rewrite <- !app_assoc in Hi. cbn [app] in Hi, Hno. congruence.
  - split; [discriminate|]. intros [mods [last [more [m' [E [_ [Hi' [H Hno]]]]]]]]. exfalso.
    destruct more as [|y more _] using rev_ind.
    + rewrite app_nil_r in E. apply app_inj_tail in E. destruct E as [-> ->]. cbn [app] in *. congruence.
    + rewrite !app_assoc in E. apply app_inj_tail in E. destruct E as [-> ->].
      specialize (Hno more y [] ltac:(reflexivity)). rewrite <- !app_assoc in Hi. cbn [app] in Hi, Hno. congruence.
Qed.

Lemma loop_outcome M (names : list str) : forall fuel attrs, Forall (fun x => ~ In 46%N x) names -> names <> [] -> length names <= fuel ->
  (exists o, import_loop M fuel (dots names) attrs = Ok o) \/ import_loop M fuel (dots names) attrs = Raise (XPy ImportError).
Proof.
  induction names as [|x names IH] using rev_ind; intros fuel attrs Hs Hd Hf; [destruct (Hd eq_refl)|].
  rewrite app_length in Hf. cbn in Hf. destruct fuel as [|fuel]; [lia|].
  apply Forall_app in Hs. destruct Hs as [Hs Hx]. inversion Hx as [|? ? Hx' _]; subst. cbn [import_loop].
  rewrite (rpartition_dots _ _ Hx'). cbn [fst snd]. destruct (mo_import M (dots (names ++ [x])) [x]) as [m| | |]; auto.
  - apply getattrs_outcome.
  - destruct (dots names) eqn:Ed; [auto|]. rewrite <- Ed in IH |- *. apply IH; [exact Hs|intros ->; discriminate Ed|lia].
Qed.

Lemma dots_split s : dots (split_on 46 s) = s.
Proof. apply join_split. Qed.
Lemma dots_length l : length l <= S (length (dots l)).
Proof.
  unfold dots. induction l as [|a l IH]; [cbn; lia|]. destruct l as [|b l]; [cbn; lia|].
  rewrite join_cons by discriminate. rewrite !app_length. assert (E : length $"." = 1) by reflexivity.
  rewrite E. cbn [length] in *. lia.
Qed.
Lemma in_dots c l : In c (dots l) -> c = 46%N \/ exists x, In x l /\ In c x.
Proof.
  unfold dots. induction l as [|a l IH]; [intros []|]. destruct l as [|b l].
  - intros H. right. exists a. split; [left; reflexivity|exact H].
  - rewrite join_cons by discriminate. intros H. apply in_app_or in H. destruct H as [H|H].
    + right. exists a. split; [left; reflexivity|exact H].
    + apply in_app_or in H. destruct H as [[<-|[]]|H]; [left; reflexivity|].
      destruct (IH H) as [->|[x [Hx Hc]]]; [left; reflexivity|]. right. exists x. split; [right; exact Hx|exact Hc].
Qed.
Lemma dots_dot l : 2 <= length l -> In 46%N (dots l).
Proof.
  destruct l as [|a [|b l]]; cbn [length]; try lia. intros _. unfold dots. rewrite join_cons by discriminate.
  apply in_or_app. right. left. reflexivity.
Qed.
Lemma simple_nodot l : Forall simple l -> Forall (fun x => ~ In 46%N x) l.
Proof. intros H. eapply Forall_impl; [|exact H]. intros a [Ha _]. exact Ha. Qed.
Lemma simple_nocolon l : Forall simple l -> ~ In 58%N (dots l).
Proof.
  intros H Hc. apply in_dots in Hc. destruct Hc as [Hc|[x [Hx Hc]]]; [discriminate Hc|].
  rewrite Forall_forall in H. destruct (H x Hx) as [_ Hn]. contradiction.
Qed.

(** @prop C83 A dotted path leads to the object that is reached from the module of the longest importable
    part of the path by following the other names as attributes. *)
Lemma import_dotted :
  forall M names o,
    2 <= length names -> Forall simple names ->
    (import_object M (dots names) = Ok o <-> names_object M names o).
Proof.
  intros M names o Hl Hs. unfold import_object.
  assert (H1 : existsb (N.eqb 58) (dots names) = false) by (apply existsb_char_false, simple_nocolon, Hs).
  assert (H2 : existsb (N.eqb 46) (dots names) = true) by (apply existsb_char, dots_dot, Hl).
  rewrite H1, H2. rewrite loop_ok.
  - unfold found, names_object.
    split; intros [mods [last [more [m [E [Hn [Hi [H Hno]]]]]]]]; exists mods, last, more, m; repeat split; auto.
    + rewrite app_nil_r in H. exact H.
    + rewrite app_nil_r. exact H.
  - apply simple_nodot, Hs.
  - intros E. rewrite E in H2. discriminate H2.
  - apply dots_length.
Qed.
(** @example
Definition demo_modules : modules := {|
  mo_import := fun s _ => if str_eqb s $"pkg" then Imported 1 else if str_eqb s $"pkg.mod" then Imported 2 else NoModule;
  mo_attr := fun o a => if Nat.eqb o 2 && str_eqb a $"Cls" then Some 3
                        else if Nat.eqb o 3 && str_eqb a $"method" then Some 4 else None;
  mo_described := fun o => if Nat.eqb o 3 then AClass $"pkg.mod" $"Cls" else AnObject None |}.
Example C83_example :
  import_object demo_modules $"pkg.mod.Cls.method" = Ok 4%nat
  /\ dots [$"pkg"; $"mod"; $"Cls"; $"method"] = $"pkg.mod.Cls.method"
  /\ import_object demo_modules $"pkg.mod:Cls.method" = Ok 4%nat
  /\ import_object demo_modules $"pkg.nomod.Cls" = py ImportError.
Proof. repeat split. Qed.
@end *)

(** @prop C83 A path with a colon names the module before it, and attributes behind it. *)
Lemma import_colon :
  forall M path name names o,
    ~ In 58%N path -> Forall simple (name :: names) ->
    (import_object M (path ++ $":" ++ dots (name :: names)) = Ok o
     <-> exists m, mo_import M path [name] = Imported m /\ leads M m (name :: names) o).
Proof.
  intros M path name names o Hp Hs. unfold import_object.
  assert (H1 : existsb (N.eqb 58) (path ++ $":" ++ dots (name :: names)) = true)
    by (apply existsb_char, in_or_app; right; left; reflexivity).
  rewrite H1.
  assert (H2 : split_on 58 (path ++ $":" ++ dots (name :: names)) = [path; dots (name :: names)]).
  { change (path ++ $":" ++ dots (name :: names)) with (join [58%N] [path; dots (name :: names)]).
    apply split_join; [discriminate|]. constructor; [exact Hp|]. constructor; [apply simple_nocolon, Hs|constructor]. }
  rewrite H2.
  assert (H3 : split_on 46 (dots (name :: names)) = name :: names)
    by (apply split_join; [discriminate|apply simple_nodot, Hs]).
  rewrite H3. cbn [firstn]. destruct (mo_import M path [name]) as [m| | |].
  - rewrite getattrs_ok. split; [eauto|]. intros [m' [E H]]. injection E as ->. exact H.
  - split; [discriminate|intros [m' [E _]]; discriminate E].
  - split; [discriminate|intros [m' [E _]]; discriminate E].
  - split; [discriminate|intros [m' [E _]]; discriminate E].
Qed.
(** @example
Example C83_colon_example :
  import_object demo_modules ($"pkg.mod" ++ $":" ++ dots [$"Cls"; $"method"]) = Ok 4%nat /\ ~ In 58%N $"pkg.mod".
Proof. split; [reflexivity|]. cbn. intuition discriminate. Qed.
@end *)

(** @prop C83 A single name is a module; and whatever the path, the outcome is an object or ImportError. *)
Lemma import_outcomes :
  forall M path,
    (simple path -> forall o, import_object M path = Ok o <-> mo_import M path [] = Imported o)
    /\ ((exists o, import_object M path = Ok o) \/ import_object M path = py ImportError).
Proof.
  intros M path. split.
  - intros [H1 H2] o. unfold import_object. apply existsb_char_false in H1, H2. rewrite H1, H2.
    destruct (mo_import M path []); split; try discriminate; congruence.
  - unfold import_object. destruct (existsb (N.eqb 58) path).
    + destruct (split_on 58 path) as [|p [|a [|? ?]]]; auto. cbv zeta. destruct (mo_import M p _); auto. apply getattrs_outcome.
    + destruct (existsb (N.eqb 46) path).
      * pose proof (loop_outcome M (split_on 46 path) (S (length path)) []) as H. rewrite dots_split in H.
        apply H; [apply split_on_pieces|apply split_on_nonempty|].
        pose proof (dots_length (split_on 46 path)) as Hl. rewrite dots_split in Hl. exact Hl.
      * destruct (mo_import M path []); eauto.
Qed.
(** @example
Example C83_outcomes_example :
  import_object demo_modules $"pkg" = Ok 1%nat /\ import_object demo_modules $"a:b:c" = py ImportError
  /\ import_object demo_modules [] = py ImportError.
Proof. repeat split. Qed.
@end *)

Lemma at_home_imported M module name o : at_home M module name o -> import_object M (module ++ $"." ++ name) = Ok o.
Proof.
  intros [mods [last [m [Hs [-> [Hn [Hname [H1 [H2 H3]]]]]]]]].
  assert (E : dots (mods ++ [last]) ++ $"." ++ name = dots ((mods ++ [last]) ++ [name])).
  { rewrite (dots_last (mods ++ [last])) by (destruct mods; discriminate). reflexivity. }
  rewrite E in *. apply import_dotted.
  - rewrite !app_length. cbn. lia.
  - apply Forall_app. split; [exact Hs|]. constructor; [exact Hname|constructor].
  - exists mods, last, [name], m. split; [rewrite <- app_assoc; reflexivity|]. split; [exact Hn|]. split; [exact H2|].
    split; [econstructor; [exact H3|constructor]|]. intros more x rest E2. destruct more as [|y more].
    + injection E2 as Ex _. subst x. cbn [app]. rewrite <- app_assoc in H1. exact H1.
    + destruct more; discriminate E2.
Qed.

(** @prop C84 Identifying an object and importing its name leads back to the object when it is at home: its
    module can be imported and has it under its name, and the name is not that of a module. *)
Lemma identify_import_partial :
  forall M o, placed M o -> forall s, identify_object M o = Ok s -> import_object M s = Ok o.
Proof.
  intros M o Hp s H. unfold placed, identify_object in *. destruct (mo_described M o) as [name|module name|[[module items]|]].
  - injection H as <-. destruct Hp as [mods [last [Hs [-> Hi]]]]. destruct mods as [|a mods].
    + cbn in *. inversion Hs as [|? ? Hx _]; subst. apply (proj1 (import_outcomes M last) Hx). exact Hi.
    + apply import_dotted.
      * rewrite app_length. cbn. lia.
      * exact Hs.
      * exists (a :: mods), last, [], o. split; [reflexivity|]. split; [|split; [exact Hi|split; [constructor|]]].
        -- rewrite dots_last by discriminate. destruct (dots (a :: mods)); discriminate.
        -- intros more x rest E. destruct more; discriminate E.
  - destruct Hp as [Hm Hp]. destruct (str_eqb_spec module $"__main__"); [contradiction|]. injection H as <-.
    apply at_home_imported, Hp.
  - destruct (attribute_of o items) as [a|] eqn:Ha; [|discriminate H]. injection H as <-. apply at_home_imported, Hp.
    clear -Ha. induction items as [|[b x] items IH]; [discriminate Ha|]. cbn in Ha. destruct (Nat.eqb_spec x o).
    + injection Ha as <-. subst. left. reflexivity.
    + right. apply IH, Ha.
  - discriminate H.
Qed.
(** @example
Example C84_example :
  placed demo_modules 3 /\ identify_object demo_modules 3 = Ok $"pkg.mod.Cls".
Proof.
  split; [|reflexivity]. split; [discriminate|]. exists [$"pkg"], $"mod", 2%nat.
  repeat split; try discriminate; try (cbn; intuition discriminate).
  repeat constructor; cbn; intuition discriminate.
Qed.
@end *)

(** @prop C84 Without that it fails: the name of a class defined in the main module is not qualified and
    cannot be imported, and a module with the name of a class hides it. *)
Lemma identify_import_refuted :
  (exists M o s, mo_described M o = AClass $"__main__" s /\ identify_object M o = Ok s
     /\ import_object M s = py ImportError)
  /\ (exists M o s, identify_object M o = Ok s /\ (exists m, mo_import M $"pkg" [$"pkg"] = Imported m /\ mo_attr M m $"item" = Some o)
        /\ exists o', import_object M s = Ok o' /\ o' <> o).
Proof.
  split.
  - exists {| mo_import := fun _ _ => NoModule; mo_attr := fun _ _ => None; mo_described := fun _ => AClass $"__main__" $"Cls" |}, 0, $"Cls".
    repeat split.
  - exists {| mo_import := fun s _ => if str_eqb s $"pkg" then Imported 1 else if str_eqb s $"pkg.item" then Imported 2 else NoModule;
              mo_attr := fun o a => Some 3; mo_described := fun _ => AClass $"pkg" $"item" |}, 3, $"pkg.item".
    split; [reflexivity|]. split; [exists 1; split; reflexivity|]. exists 2. split; [reflexivity|discriminate].
Qed.

(** @prop C84 What it means for Object fields: when [import_object] and [identify_object] are the ones of the
    package, the serialized form of an object at home is read back as that object. *)
Lemma object_field_round_trip_partial :
  forall E desc recon n p M (object : nat -> val) o,
    (forall s i, import_object M s = Ok i -> e_import E s = Some (object i)) ->
    (forall i s, e_identify E (object i) = Some s -> identify_object M i = Ok s) ->
    (forall i, object i <> VNone /\ forall s, object i <> VStr s) ->
    plain p -> placed M o ->
    forall partial anc t,
      process_gen E desc recon n (Fld p KObject) partial Outbound true anc (object o) = Ok t ->
      process_gen E desc recon n (Fld p KObject) partial Inbound true anc t = Ok (object o).
Proof.
  intros E desc recon n p M object o Himp Hid Hob Hp Hpl partial anc t H.
  destruct (Hob o) as [Hn Hs].
  assert (Ht : exists s, t = VStr s /\ identify_object M o = Ok s).
  { revert H. rewrite process_basic by reflexivity. unfold process_scalar. destruct Hp as [Hp1 Hp2].
    rewrite is_null_some by exact Hn. unfold preprocess. rewrite Hp1, Hp2. cbn [bind andb phase_eqb is_none negb].
    cbn [validate_value bind]. intros H.
    assert (Hq : match e_identify E (object o) with Some s => Ok (VStr s) | None => terr [$"(unknown)"] $"invalid" end = Ok t).
    { revert H. cbn [serialize_value]. destruct (object o) eqn:Eo; try (destruct (Hs _ eq_refl));
        destruct (e_identify E _); intros H; exact H. }
    destruct (e_identify E (object o)) as [s|] eqn:Ei; [|discriminate Hq]. injection Hq as <-. exists s. split; [reflexivity|].
    apply Hid, Ei. }
  destruct Ht as [s [-> Hi]]. pose proof (identify_import_partial M o Hpl s Hi) as Hio. apply Himp in Hio.
  rewrite (proj2 (object_from_text E desc recon n p partial anc s) _ Hio Hn).
  rewrite process_basic by reflexivity. unfold process_scalar. destruct Hp as [Hp1 Hp2].
  rewrite is_null_some by exact Hn. unfold preprocess. rewrite Hp1, Hp2. reflexivity.
Qed.
(** @example
Definition demo_env : env := {|
  e_pre := e_pre env0; e_ext := e_ext env0; e_inst := e_inst env0; e_pattern := e_pattern env0; e_local := e_local env0;
  e_pad := e_pad env0; e_udigit := e_udigit env0; e_uword := e_uword env0; e_ulower := e_ulower env0;
  e_import := fun s => match import_object demo_modules s with Ok i => Some (VObj i []) | Raise _ => None end;
  e_identify := fun v => match v with
                         | VObj i _ => match identify_object demo_modules i with Ok s => Some s | Raise _ => None end
                         | _ => None
                         end;
  e_undef := e_undef env0; e_str := e_str env0; e_impl := e_impl env0; e_schemas := e_schemas env0; e_compile := e_compile env0;
  e_surrogate := e_surrogate env0; e_identity := e_identity env0; e_repr := e_repr env0 |}.
Example C84_object_example :
  let run := fun ph => process_gen demo_env nodesc norecon 1 (Fld p0 KObject) false ph true [] in
  run Outbound (VObj 3 []) = Ok (VStr $"pkg.mod.Cls") /\ run Inbound (VStr $"pkg.mod.Cls") = Ok (VObj 3 [])
  /\ (forall s i, import_object demo_modules s = Ok i -> e_import demo_env s = Some (VObj i []))
  /\ (forall i s, e_identify demo_env (VObj i []) = Some s -> identify_object demo_modules i = Ok s).
Proof.
  split; [vm_compute; reflexivity|]. split; [vm_compute; reflexivity|]. split.
  - intros s i H. cbn. rewrite H. reflexivity.
  - intros i s. cbn [demo_env e_identify]. destruct (identify_object demo_modules i); [|discriminate].
    intros H. injection H as <-. reflexivity.
Qed.
@end *)
