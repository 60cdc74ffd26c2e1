(** * What the text formats make of texts they did not write (C59, C61, C63, C64). *)
(* @imports Spec Demo TextMoreSpec *)
From Coq Require Import ZifyBool ZifyN ZifyNat.
From Verif Require Import PyBaseFacts Spec Demo TextMoreSpec.
Open Scope N_scope.

Lemma scan_shielded close bad s m :
  (close = 125 /\ bad = bad_in_dict) \/ (close = 93 /\ bad = bad_in_list) ->
  scan close bad s = Some m <-> exists b r, s = b ++ close :: r /\ m = b ++ [close] /\ shielded b.
Proof.
  intros HC. assert (CB : In close [93; 125]) by (cbn; destruct HC as [[-> _]|[-> _]]; auto).
  assert (BAD : forall c, c <> close -> c <> 92 -> bad c = false <-> ~ In c [92; 91; 93; 123; 125]).
  { intros c H1 H2. destruct HC as [[-> ->]|[-> ->]]; unfold bad_in_dict, bad_in_list; cbn [In]; lia. }
  revert m. induction s as [s IH] using (well_founded_induction (well_founded_ltof _ (@length N))). unfold ltof in IH.
  intros m. destruct s as [|c s]; [split; [discriminate|intros (b & r & H & _); destruct b; discriminate]|].
  cbn [scan]. destruct (N.eqb_spec c close) as [->|NC].
  - split.
    + intros [= <-]. exists [], s. repeat split. constructor.
    + intros (b & r & H & -> & S). destruct S as [|c b N S|c b N S]; [reflexivity| |].
      * exfalso. injection H as <- _. apply N. cbn in CB |- *. tauto.
      * exfalso. assert (close = 92) by (cbn [app] in H; congruence). cbn [In] in CB. lia.
  - destruct (N.eqb_spec c 92) as [->|NB].
    + destruct s as [|d s].
      * split; [discriminate|]. intros (b & r & H & -> & S). destruct S as [|c b N S|c b N S]; cbn in H.
        -- assert (92 = close) by congruence. contradiction.
        -- exfalso. apply N. left. congruence.
        -- discriminate.
      * assert (D : is_bracket d || (d =? 92) = true <-> In d [92; 91; 93; 123; 125]) by (unfold is_bracket; cbn [In]; lia).
        destruct (is_bracket d || (d =? 92)).
        -- specialize (IH s ltac:(cbn; lia)). destruct (scan close bad s) as [m'|].
           ++ cbn [option_map]. destruct (proj1 (IH m') eq_refl) as (b' & r' & -> & -> & S'). split.
              ** intros [= <-]. exists (92 :: d :: b'), r'. repeat split. constructor; [now apply D|exact S'].
              ** intros (b & r & H & -> & S). destruct S as [|c b N S|c b N S]; cbn [app] in H.
                 { congruence. }
                 { exfalso. apply N. left. congruence. }
                 injection H as <- H. assert (X : Some (b' ++ [close]) = Some (b ++ [close])) by (apply IH; exists b, r; auto).
                 cbn [app]. injection X as X. rewrite X. reflexivity.
           ++ split; [discriminate|]. intros (b & r & H & -> & S). destruct S as [|c b N S|c b N S]; cbn [app] in H.
              { congruence. }
              { exfalso. apply N. left. congruence. }
              injection H as <- H. assert (X : None = Some (b ++ [close])) by (apply IH; exists b, r; auto). discriminate.
        -- split; [discriminate|]. intros (b & r & H & -> & S). destruct S as [|c b N S|c b N S]; cbn [app] in H.
           { congruence. }
           { exfalso. apply N. left. congruence. }
           injection H as <- H. apply D in N. discriminate.
    + specialize (BAD c NC NB). destruct (bad c).
      * split; [discriminate|]. intros (b & r & H & -> & S). destruct S as [|c' b N S|c' b N S]; cbn [app] in H.
        { congruence. }
        { injection H as <- _. apply BAD in N. discriminate. }
        { congruence. }
      * specialize (IH s ltac:(cbn; lia)). destruct (scan close bad s) as [m'|].
        -- cbn [option_map]. destruct (proj1 (IH m') eq_refl) as (b' & r' & -> & -> & S'). split.
           ++ intros [= <-]. exists (c :: b'), r'. repeat split. constructor; [now apply BAD|exact S'].
           ++ intros (b & r & H & -> & S). destruct S as [|c' b N S|c' b N S]; cbn [app] in H.
              { congruence. }
              { injection H as <- H. assert (X : Some (b' ++ [close]) = Some (b ++ [close])) by (apply IH; exists b, r; auto).
                cbn [app]. injection X as X. rewrite X. reflexivity. }
              { congruence. }
        -- split; [discriminate|]. intros (b & r & H & -> & S). destruct S as [|c' b N S|c' b N S]; cbn [app] in H.
           { congruence. }
           { injection H as <- H. assert (X : None = Some (b ++ [close])) by (apply IH; exists b, r; auto). discriminate. }
           { congruence. }
Qed.

(** @prop C59 What is taken for an innermost structure, exactly: a bracket, text in which every bracket is
    escaped and every backslash is part of an escape, and the closing bracket of the same kind. *)
Lemma structure_matched :
  forall s m, structure_match s = Some m
    <-> exists opening closing body rest, bracket_pair opening closing /\ shielded body
          /\ m = opening :: body ++ [closing] /\ s = m ++ rest.
Proof.
  intros s m. unfold bracket_pair. destruct s as [|c s].
  { split; [discriminate|]. intros (o & cl & b & r & _ & _ & -> & H). discriminate. }
  destruct (N.eq_dec c 123) as [->|N1]; [|destruct (N.eq_dec c 91) as [->|N2]].
  - cbn [structure_match]. split.
    + destruct (scan 125 bad_in_dict s) as [m'|] eqn:S; [|discriminate]. intros [= <-].
      apply (scan_shielded 125 bad_in_dict) in S as (b & r & -> & -> & S); [|auto].
      exists 123, 125, b, r. repeat split; auto. cbn [app]. now rewrite <- app_assoc.
    + intros (o & cl & b & r & [[-> ->]|[-> ->]] & S & -> & H); [|discriminate]. cbn [app] in H. injection H as ->.
      assert (X : scan 125 bad_in_dict ((b ++ [125]) ++ r) = Some (b ++ [125])).
      { apply scan_shielded; [auto|]. exists b, r. rewrite <- app_assoc. auto. }
      rewrite X. reflexivity.
  - cbn [structure_match]. split.
    + destruct (scan 93 bad_in_list s) as [m'|] eqn:S; [|discriminate]. intros [= <-].
      apply (scan_shielded 93 bad_in_list) in S as (b & r & -> & -> & S); [|auto].
      exists 91, 93, b, r. repeat split; auto. cbn [app]. now rewrite <- app_assoc.
    + intros (o & cl & b & r & [[-> ->]|[-> ->]] & S & -> & H); [discriminate|]. cbn [app] in H. injection H as ->.
      assert (X : scan 93 bad_in_list ((b ++ [93]) ++ r) = Some (b ++ [93])).
      { apply scan_shielded; [auto|]. exists b, r. rewrite <- app_assoc. auto. }
      rewrite X. reflexivity.
  - assert (X : structure_match (c :: s) = None).
    { unfold structure_match. destruct c as [|p]; [reflexivity|]. do 7 (destruct p as [p|p|]; try reflexivity); contradiction. }
    rewrite X. split; [discriminate|]. intros (o & cl & b & r & [[-> ->]|[-> ->]] & S & -> & H); cbn [app] in H; injection H as -> _; contradiction.
Qed.
(** @example
Example C59_matched_example : structure_match $"[a\},b]c]" = Some $"[a\},b]" /\ structure_match $"[a},b]" = None
  /\ structure_match $"{a:\x}" = None.
Proof. vm_compute. auto. Qed.
@end *)

Lemma split_on_apart sep a b : split_on sep (a ++ sep :: b) = split_on sep a ++ split_on sep b.
Proof.
  induction a as [|c a IH]; cbn [app split_on]; [now rewrite N.eqb_refl|]. destruct (c =? sep); [cbn [app]; now rewrite IH|].
  rewrite IH. assert (H := split_on_nonempty sep a). destruct (split_on sep a); [contradiction|]. reflexivity.
Qed.
Lemma equals_none s : ~ In 61 s -> split_equals s = None.
Proof.
  induction s as [|c s IH]; intros H; [reflexivity|]. cbn [split_equals]. destruct (N.eqb_spec c 61) as [->|]; [exfalso; apply H; now left|].
  rewrite IH; [reflexivity|]. intros I. apply H. now right.
Qed.
Lemma equals_end s : ~ In 61 s -> split_equals (s ++ [61]) = Some (s, []).
Proof.
  induction s as [|c s IH]; intros H; [reflexivity|]. cbn [app split_equals]. destruct (N.eqb_spec c 61) as [->|]; [exfalso; apply H; now left|].
  rewrite IH; [reflexivity|]. intros I. apply H. now right.
Qed.

(** @prop C61 Parts of a query that give no value, having no equals sign or nothing after it, are left out,
    wherever they are. *)
Lemma urlencoded_valueless :
  forall E semicolons before piece after,
    valueless piece -> ~ In 38 piece -> ~ In 59 piece ->
    url_unserialize E semicolons (VStr (before ++ $"&" ++ piece ++ $"&" ++ after))
    = url_unserialize E semicolons (VStr (before ++ $"&" ++ after))
    /\ url_unserialize E semicolons (VStr piece) = Ok (VDict false []).
Proof.
  intros E semi before piece after V N1 N2. unfold url_unserialize.
  assert (P : match split_equals piece with
              | None | Some (_, []) => [] : list (str * str)
              | Some (k, v) => [(unquote 0 [] (plus_spaces k), unquote 0 [] (plus_spaces v))] end = []).
  { destruct V as [V|(name & -> & V)]; [now rewrite equals_none|]. change ($"=") with [61]. now rewrite equals_end. }
  assert (S : flat_map (fun part => if semi then split_on 59 part else [part]) (split_on 38 piece) = [piece]).
  { rewrite split_on_none by exact N1. cbn [flat_map]. destruct semi; [rewrite split_on_none by exact N2|]; reflexivity. }
  split.
  - change ($"&") with [38]. cbn [app]. unfold parse_qsl. rewrite !split_on_apart, !flat_map_app, S. cbn [flat_map]. rewrite P. reflexivity.
  - unfold parse_qsl. rewrite S. cbn [flat_map]. rewrite P. reflexivity.
Qed.
(** @example
Example C61_valueless_example : url_unserialize env0 false (VStr $"a=1&b&c=&d=x") = Ok (VDict false [(VStr $"a", VStr $"1"); (VStr $"d", VStr $"x")]).
Proof. vm_compute. reflexivity. Qed.
@end *)

(** @prop C63 Columns may be given as one text with commas instead of a list, and a path leads from
    structure to structure: a step that the schema or the value does not know is a ValueError. *)
Lemma csv_columns_and_path :
  forall E,
    (forall names path v schema, names <> [] -> (forall name, In name names -> ~ In 44 name) ->
       csv_serialize E (VStr (join $"," names)) path v schema = csv_serialize E (VList (map VStr names)) path v schema)
    /\ (forall columns key path p l strict order o d,
          let schema := Fld p (KStructure (SPlain l) strict order) in
          (forall f v, aget key l = Some f -> sget key d = Some v ->
             csv_serialize E columns (key :: path) (VDict o d) schema = csv_serialize E columns path v f)
          /\ (aget key l = None \/ sget key d = None ->
              csv_serialize E columns (key :: path) (VDict o d) schema = py ValueError)).
Proof.
  intros E. split.
  - intros names path v schema NE H. unfold csv_serialize. destruct (follow E path v schema) as [[w s]|]; [|reflexivity]. cbn [bind fst snd].
    assert (C : forall d, chosen_columns (VStr (join $"," names)) d = chosen_columns (VList (map VStr names)) d).
    { intros d. cbn [chosen_columns]. replace (split_on 44 (join $"," names)) with names.
      - destruct names as [|x names]; [contradiction|]. cbn [map].
        replace (forallb (fun v => match v with VStr _ => true | _ => false end) (VStr x :: map VStr names)) with true.
        + f_equal. cbn [map]. f_equal. rewrite map_map. now rewrite map_id.
        + symmetry. apply forallb_forall. intros y I. change (VStr x :: map VStr names) with (map VStr (x :: names)) in I.
          apply in_map_iff in I as (z & <- & _). reflexivity.
      - clear -NE H. symmetry. induction names as [|x names IH]; [contradiction|]. destruct names as [|y names].
        + cbn [join]. apply split_on_none, H. now left.
        + rewrite join_cons by discriminate. change ($",") with [44]. cbn [app]. rewrite split_on_app by (apply H; now left).
          f_equal. apply IH; [discriminate|]. intros z I. apply H. now right. }
    destruct w; try reflexivity; (destruct (row_structure E ValueError s); [|reflexivity]; cbn [bind]; rewrite C; reflexivity).
  - intros columns key path p l strict order o d schema. unfold csv_serialize. cbn [follow kind_at schema]. split.
    + intros f v H1 H2. unfold get. rewrite H1, H2. reflexivity.
    + intros [H|H]; unfold get; [rewrite H; reflexivity|]. destruct (aget key l); [rewrite H|]; reflexivity.
Qed.
(** @example
Example C63_path_example :
  let items := Fld p0 (KSequence (Fld p0 (KStructure (SPlain [($"a", Fld p0 (KInteger None None)); ($"b", Fld p0 (KInteger None None))]) true None)) None None false) in
  let schema := Fld p0 (KStructure (SPlain [($"rows", items)]) true None) in
  let v := VDict false [(VStr $"rows", VList [VDict false [(VStr $"a", VInt 1); (VStr $"b", VInt 2)]])] in
  csv_serialize env0 (VStr $"b,a") [$"rows"] v schema = Ok (csv_row [$"b"; $"a"] ++ csv_row [$"2"; $"1"])
  /\ csv_serialize env0 VNone [$"columns"] v schema = py ValueError.
Proof. vm_compute. auto. Qed.
@end *)

(** @prop C64 Elements of booleans and numbers that have no text raise AttributeError and TypeError, and
    texts that are no numbers ValueError. *)
Lemma xml_texts_refused :
  forall E tag attrs children,
    aget $"null" attrs = None \/ aget $"null" attrs = Some [] ->
    xml_value E (Elem tag attrs None children) (Some KBoolean) = py AttributeError
    /\ (forall mn mx, xml_value E (Elem tag attrs None children) (Some (KInteger mn mx)) = py TypeError
          /\ forall s, parse_int (e_udigit E) s = None ->
               xml_value E (Elem tag attrs (Some s) children) (Some (KInteger mn mx)) = py ValueError)
    /\ (forall mn mx, xml_value E (Elem tag attrs None children) (Some (KFloat mn mx)) = py TypeError
          /\ forall s, parse_float (e_udigit E) s = None ->
               xml_value E (Elem tag attrs (Some s) children) (Some (KFloat mn mx)) = py ValueError).
Proof.
  intros E tag attrs children H.
  assert (G : forall A (a b : A), match aget $"null" attrs with Some (_ :: _) => a | _ => b end = b) by (intros; destruct H as [-> | ->]; reflexivity).
  repeat split; intros; cbn [xml_value]; rewrite G; try reflexivity; unfold number_text; rewrite H0; reflexivity.
Qed.
(** @example
Example C64_texts_example :
  xml_unserialize env0 $"<n></n>" (Fld p0 (KInteger None None)) = py TypeError
  /\ xml_unserialize env0 $"<n>x</n>" (Fld p0 (KFloat None None)) = py ValueError.
Proof. vm_compute. auto. Qed.
@end *)
