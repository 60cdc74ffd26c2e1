(** * Proofs about the texts of errors (claim C79). *)
(* @imports MsgSpec Spec Demo *)
From Verif Require Import MsgSpec Spec PyBaseFacts ProcessFacts LocProofs Demo.

Lemma veq_one L n : veq L (VInt n) (VInt 1) = (n =? 1)%Z.
Proof.
  cbn [veq num_of]. unfold num_eqb, num_of_Z, Qeq_bool. cbn [Qnum Qden inject_Z].
  rewrite !Z.mul_1_r. destruct (Z.eqb_spec n 1) as [->|H]; [reflexivity|].
  destruct (Zeq_bool n 1) eqn:Hz; [apply Zeq_bool_eq in Hz; contradiction|reflexivity].
Qed.

Lemma pluralize_item L n : pluralize L $"item" (VInt n) = if (n =? 1)%Z then $"item" else $"items".
Proof. unfold pluralize. rewrite veq_one. destruct (n =? 1)%Z; reflexivity. Qed.

Ltac texts := lazy -[Z_text dec_text date_text datetime_text tod_text join sort_str pluralize noun_for
  singular_up_to_one arg_text Z.of_nat app Z.eqb]; cbn [app].

Lemma noun_singular one many n : noun_for one many n = VStr (singular_up_to_one n one many).
Proof. unfold noun_for, singular_up_to_one. rewrite Z.gtb_ltb, Z.ltb_antisym. destruct (n <=? 1)%Z; reflexivity. Qed.

Lemma arguments_field {F} E repr (k : kindP val F) tok key : aget $"field" (arguments E repr k tok key) = None.
Proof.
  destruct k as [|mn mx| |mn mx|mn mx u|mn mx|[va|]|[|] x mn mx|l ig| |mn mx|mn mx|v ko r| |it mn mx u|d s ko|[va|]
                |pat mn mx s|mn mx|seg|vs|fs|];
    try reflexivity; try destruct mn, mx; unfold arguments;
    repeat match goal with |- context [str_eqb tok ?s] => destruct (str_eqb tok s) end; reflexivity.
Qed.

Lemma construct_called {F} E repr fixed p (k : kindP val F) tok who key :
  called p who ->
  construct_error E repr fixed p k tok (arguments E repr k tok key)
  = match aget tok (error_table k) with
    | None => py KeyError
    | Some e => do m <- percent E repr fixed SText (fe_message e) (aset $"field" (VStr who) (arguments E repr k tok key));
                Ok (message_entry (fe_token e) (fe_title e) m)
    end.
Proof.
  intros Hc. unfold construct_error, construct_entry. destruct (aget tok (error_table k)) as [e|]; [|reflexivity].
  unfold format_message. rewrite arguments_field. unfold called in Hc.
  destruct (p_name p) as [[|c s]|]; [destruct Hc as [[H _]|[_ ->]]; [congruence|reflexivity]| |subst who; reflexivity].
  destruct Hc as [[_ ->]|[H _]]; [reflexivity|discriminate].
Qed.

Lemma str_of_text E s : arg_text E (VStr s) = s.
Proof. reflexivity. Qed.

Ltac worded :=
  match goal with |- context [aget ?t (error_table ?k)] =>
    let e := eval lazy in (aget t (error_table k)) in change (aget t (error_table k)) with e end;
  cbv beta iota delta [fe_message fe_token fe_title]; texts; rewrite ?pluralize_item, ?noun_singular; rewrite ?str_of_text; rewrite ?app_nil_r; 
  match goal with |- exists t m, Some (?a, ?b) = _ /\ _ => exists a, b; split; reflexivity end.

Lemma message_built_aux E repr fixed p (k : kind) c tok who key :
  reports p k c tok -> called p who ->
  exists title message,
    wording E repr fixed who k tok key = Some (title, message)
    /\ construct_error E repr fixed p k tok (arguments E repr k tok key) = Ok (message_entry tok title message).
Proof.
  intros Hr Hc. rewrite (construct_called _ _ _ _ _ _ _ _ Hc). clear Hc.
  destruct Hr as [[[_ ->]|[_ [[_ ->]|H]]]|[_ H]].
  - destruct k as [| | | | | |[va|]| | | | | | | | | |[va|]| | | | | |]; worded.
  - destruct k as [| | | | | |[va|]| | | | | | | | | |[va|]| | | | | |]; worded.
  - destruct k as [|mn mx| |mn mx|mn mx u|mn mx|[va|]|[|] x mn mx|l ig| |mn mx|mn mx|v ko r| |it mn mx u|[d|on vs] s ko|[va|]
                |pat mn mx s|mn mx|seg|vs|fs|]; try contradiction H;
    repeat match goal with
    | H : _ \/ _ |- _ => destruct H as [H|H]
    | H : _ /\ _ |- _ => destruct H
    | H : ?o <> None |- _ => (is_var o; destruct o; [clear H|contradiction H; reflexivity])
                            || (contradiction H; reflexivity) || clear H
    end; subst tok; try discriminate.
    all: worded.
  - destruct k as [| | | | | | | | | | | |v ko [r|]| | |d s ko| | | | | | |]; try contradiction H.
    + subst tok. worded.
    + destruct H as [H|[_ H]]; subst tok; worded.
Qed.

(** ** Which field an error in an error is about *)

Lemma part_variant E g p d s ko on vs vk :
  In (vk, d) vs -> part E g (Fld p (KStructure (SPlain d) s ko)) ->
  g = Fld p (KStructure (SPlain d) s ko) \/ part E g (Fld p (KStructure (SPoly on vs) s ko)).
Proof.
  intros Hd H. inversion H as [|? ? h ? Hh Hg|]; subst; [left; reflexivity|]. right.
  eapply part_inner; [|exact Hg]. cbn. right. apply in_flat_map. exists (vk, d). split; [exact Hd|exact Hh].
Qed.

Lemma part_trans E h g f : part E h g -> part E g f -> part E h f.
Proof.
  intros Hh Hg. induction Hg as [f|p k g' h' Hi _ IH|i g' h' He _ IH]; [exact Hh| |].
  - eapply part_inner; [exact Hi|exact (IH Hh)].
  - eapply part_placeholder; [exact He|exact (IH Hh)].
Qed.

(** The error is one token, which the field [g] may report. *)
Definition reported_by (E : env) (f : field) (x : err) : Prop :=
  exists p k tok, part E (Fld p k) f /\ er_errors x = [VDict false [(VStr $"token", VStr tok)]]
    /\ reports p k (er_cls x) tok.

Lemma reports_variant p d s ko on vs c tok :
  reports p (KStructure (SPlain d) s ko : kind) c tok -> reports p (KStructure (SPoly on vs) s ko : kind) c tok.
Proof.
  intros [[H|[Hc [H|[]]]]|H]; [left; left; exact H|left; right; split; [exact Hc|left; exact H]|right; exact H].
Qed.

Lemma reported_variant E p d s ko on vs vk x :
  In (vk, d) vs -> reported_by E (Fld p (KStructure (SPlain d) s ko)) x ->
  reported_by E (Fld p (KStructure (SPoly on vs) s ko)) x.
Proof.
  intros Hd [q [k [tok [Hp [He Hr]]]]]. destruct (part_variant _ _ _ _ _ _ on _ _ Hd Hp) as [H|H].
  - injection H as -> ->. exists p, (KStructure (SPoly on vs) s ko), tok. split; [constructor|].
    split; [exact He|]. eapply reports_variant, Hr.
  - exists q, k, tok. auto.
Qed.

Lemma reported_part E g f x : part E g f -> reported_by E g x -> reported_by E f x.
Proof. intros Hg [p [k [tok [Hp H]]]]. exists p, k, tok. split; [exact (part_trans _ _ _ _ Hp Hg)|exact H]. Qed.

Lemma located_own_reported E f path e : located E f path e -> er_structure e = None -> reported_by E f e.
Proof.
  induction 1 as [p k path c tok Ht|i g path e He _ IH| | | |p fs g path e Hg _ IH| |p on vs vk d s ko path e Hd _ IH
                 |p on q vs s ko name path e Hq Hn _ IH]; intros Hs; try discriminate Hs.
  - exists p, k, tok. split; [constructor|]. split; [reflexivity|left; exact Ht].
  - eapply reported_part; [|exact (IH Hs)]. eapply part_placeholder; [exact He|constructor].
  - eapply reported_part; [|exact (IH Hs)]. eapply part_inner; [exact Hg|constructor].
  - eapply reported_variant; [exact Hd|exact (IH Hs)].
  - eapply reported_part; [|exact (IH Hs)]. eapply part_inner; [left; reflexivity|constructor].
Qed.

Lemma part_sub E p k g : In g (subfields k) -> part E g (Fld p k).
Proof. intros H. eapply part_inner; [exact H|constructor]. Qed.

Lemma located_nested E f path e s x :
  located E f path e -> er_structure e = Some s -> nested s x ->
  (er_structure x = None /\ reported_by E f x) \/ exists g path', part E g f /\ located E g path' x.
Proof.
  intros Hl Hs Hx. revert Hs.
  induction Hl as [p k path c tok Ht|i g path e He _ IH|p it mn mx u path l Hc|p fs path l Hlen Hc|p v kf r path l Hc
    |p fs g path e Hg _ IH|p d st ko path o l Hc|p on vs vk d st ko path e Hd _ IH
    |p on q vs st ko name path e Hq Hn _ IH]; intros Hs; try discriminate Hs; try (injection Hs as <-).
  - destruct (IH Hs) as [[H1 H2]|[h [path' [H1 H2]]]].
    + left. split; [exact H1|]. eapply reported_part; [|exact H2]. eapply part_placeholder; [exact He|constructor].
    + right. exists h, path'. split; [eapply part_placeholder; eassumption|exact H2].
  - apply In_nth_error in Hx. destruct Hx as [i Hi]. right. exists it, (path ++ [index_seg i]).
    split; [apply part_sub; left; reflexivity|exact (Hc i x Hi)].
  - apply In_nth_error in Hx. destruct Hx as [i Hi]. right.
    destruct (nth_error fs i) as [g|] eqn:Hg.
    + exists g, (path ++ [index_seg i]). split; [apply part_sub, (nth_error_In _ _ Hg)|exact (Hc i g x Hg Hi)].
    + apply nth_error_None in Hg. assert (i < length l)%nat by (apply nth_error_Some; congruence). lia.
  - destruct Hx as [k Hk]. destruct (Hc k x Hk) as [[k' [s [_ [_ H]]]]|[[r' [-> _]] H]].
    + right. exists v, (path ++ [key_segment s]). split; [|exact H]. apply part_sub. destruct kf; left; reflexivity.
    + left. injection H as ->. split; [reflexivity|]. exists p, (KMap v kf (Some r')), $"required".
      split; [constructor|]. split; [reflexivity|]. right. split; reflexivity.
  - destruct (IH Hs) as [[H1 H2]|[h [path' [H1 H2]]]].
    + left. split; [exact H1|]. eapply reported_part; [|exact H2]. apply part_sub, Hg.
    + right. exists h, path'. split; [eapply part_inner; eassumption|exact H2].
  - destruct Hx as [k Hk]. destruct (Hc k x Hk) as [[name [g [_ [Hg H]]]]|[[_ H]|[Hst H]]].
    + right. exists g, (path ++ [name_segment name]). split; [|exact H]. apply part_sub.
      exact (in_map snd _ _ Hg).
    + left. injection H as ->. split; [reflexivity|]. exists p, (KStructure (SPlain d) st ko), $"required".
      split; [constructor|]. split; [reflexivity|]. right. split; [reflexivity|left; reflexivity].
    + left. injection H as ->. split; [reflexivity|]. exists p, (KStructure (SPlain d) st ko), $"unknown".
      split; [constructor|]. split; [reflexivity|]. right. split; [reflexivity|right; auto].
  - destruct (IH Hs) as [[H1 H2]|[h [path' [H1 H2]]]].
    + left. split; [exact H1|]. eapply reported_variant; eassumption.
    + right. destruct (part_variant _ _ _ _ _ _ on _ _ Hd H1) as [->|H].
      * exists (Fld p (KStructure (SPoly on vs) st ko)), path'. split; [constructor|].
        eapply located_variant; eassumption.
      * exists h, path'. auto.
  - destruct (IH Hs) as [[H1 H2]|[h [path' [H1 H2]]]].
    + left. split; [exact H1|]. eapply reported_part; [|exact H2]. apply part_sub. left. reflexivity.
    + right. exists h, path'. split; [eapply part_inner; [left; reflexivity|exact H1]|exact H2].
Qed.

Lemma within_reported E y e :
  within y e -> forall f path, located E f path e -> er_structure y = None -> reported_by E f y.
Proof.
  induction 1 as [e|e s x y Hs Hx Hy IH]; intros f path Hl Hn; [eapply located_own_reported; eassumption|].
  destruct (located_nested _ _ _ _ _ _ Hl Hs Hx) as [[H1 H2]|[g [path' [H1 H2]]]].
  - inversion Hy as [|? s' ? ? Hs']; subst; [exact H2|congruence].
  - eapply reported_part; [exact H1|]. eapply IH; eassumption.
Qed.

(** @prop C79 Every token that a field reports (see [tells] in Spec.v and [reports] in MsgSpec.v) has a
    title and a message, and the message is built without any exception: it calls the field by its
    name or ['unknown-field'], and says the bounds, lengths, values and names of the field and of the
    key concerned, word for word as in [wording]. *)
Lemma message_built :
  forall E repr fixed p (k : kind) c tok who key,
    reports p k c tok -> called p who ->
    exists title message,
      wording E repr fixed who k tok key = Some (title, message)
      /\ construct_error E repr fixed p k tok (arguments E repr k tok key)
         = Ok (message_entry tok title message).
Proof. exact message_built_aux. Qed.

(** @example
Example C79_message_built_example :
  reports (p_named $"name") (KText None (Some 2%Z) None true : kind) CValidation $"min_length"
  /\ called (p_named $"name") $"name"
  /\ construct_error env0 (fun _ => $"?") (fun _ => $"?") (p_named $"name") (KText None (Some 2%Z) None true : kind) $"min_length"
       (arguments env0 (fun _ => $"?") (KText None (Some 2%Z) None true : kind) $"min_length" VNone)
     = Ok (message_entry $"min_length" $"minimum length" $"name must contain at least 2 non-whitespace characters").
Proof.
  split; [left; right; split; [reflexivity|right; left; split; [discriminate|reflexivity]]|].
  split; [left; split; [discriminate|reflexivity]|vm_compute; reflexivity].
Qed.
@end *)

(** @prop C79 Every error without structure that a run of an ordinary schema raises, or that is nested
    at any depth in the error it raises, is one token reported by a field that occurs in the schema, and
    the message about it is built. *)
Lemma messages_of_a_run :
  forall E desc recon n p k partial ph ser anc v e x repr fixed,
    throughout E ordinary (Fld p k) ->
    process_gen E desc recon n (Fld p k) partial ph ser anc v = Raise (XErr e) ->
    within x e -> er_structure x = None ->
    exists q j tok,
      part E (Fld q j) (Fld p k)
      /\ er_errors x = [VDict false [(VStr $"token", VStr tok)]]
      /\ reports q j (er_cls x) tok
      /\ forall who key, called q who ->
           exists title message,
             wording E repr fixed who j tok key = Some (title, message)
             /\ construct_error E repr fixed q j tok (arguments E repr j tok key)
                = Ok (message_entry tok title message).
Proof.
  intros E desc recon n p k partial ph ser anc v e x repr fixed Hf H Hx Hs.
  assert (Hl := error_locations_partial _ _ _ _ _ _ _ _ _ _ _ _ Hf H).
  destruct (within_reported _ _ _ Hx _ _ Hl Hs) as [q [j [tok [Hp [He Hr]]]]].
  exists q, j, tok. do 3 (split; [assumption|]). intros who key Hc. eapply message_built_aux; eassumption.
Qed.

(** @example
(* An integer below its minimum in a sequence. *)
Example C79_messages_of_a_run_example :
  let g := Fld (p_named $"age") (KInteger (Some 18%Z) None) in
  let f := KSequence g None None false in
  let x := own_err CValidation [$"(sequence)"; $"[1]"] $"minimum" in
  throughout env0 ordinary (Fld p0 f)
  /\ (exists e, run0 (Fld p0 f) Inbound false (VList [VInt 20; VInt 17]) = Raise (XErr e) /\ within x e)
  /\ wording env0 (fun _ => $"?") (fun _ => $"?") $"age" (KInteger (Some 18%Z) None : kind) $"minimum" VNone
     = Some ($"minimum value", $"age must be greater then or equal to 18").
Proof.
  split; [|split].
  - split; [|discriminate]. constructor; [reflexivity|]. intros g [<-|[]]. constructor; [exact I|intros g []].
  - eexists. split; [reflexivity|]. eapply within_nested; [reflexivity|right; left; reflexivity|constructor].
  - vm_compute. reflexivity.
Qed.
@end *)

(** @prop C79 Without the values at hand, which is so where a constant is not met and where a
    preprocessor raises (/repo/scheme/field.py:460-463), the error 'invalid' can be built for every
    field but an enumeration: there KeyError escapes instead. *)
Lemma invalid_without_values :
  forall E repr fixed p (k : kind) who,
    called p who ->
    ((exists l ig, k = KEnumeration l ig)
     -> construct_error E repr fixed p k $"invalid" [] = py KeyError)
    /\ ((forall l ig, k <> KEnumeration l ig)
        -> exists title message,
             wording E repr fixed who k $"invalid" VNone = Some (title, message)
             /\ construct_error E repr fixed p k $"invalid" [] = Ok (message_entry $"invalid" title message)).
Proof.
  intros E repr fixed p k who Hc. split.
  - intros [l [ig ->]]. unfold construct_error, construct_entry.
    change (aget $"invalid" (error_table (KEnumeration l ig : kind)))
      with (Some (invalid_error $"%(field)s must be one of %(values)s")).
    unfold format_message. cbn [aget]. destruct (p_name p) as [[|? ?]|]; reflexivity.
  - intros Hk. assert (Ha : arguments E repr k $"invalid" VNone = []).
    { destruct k as [|mn mx| |mn mx|mn mx u|mn mx|[va|]|mu x mn mx|l ig| |mn mx|mn mx|v ko r| |it mn mx u|d s ko|[va|]
                |pat mn mx s|mn mx|seg|vs|fs|]; try reflexivity. exfalso. eapply Hk. reflexivity. }
    rewrite <- Ha. apply (message_built_aux E repr fixed p k CInvalidType); [|exact Hc]. left. left. auto.
Qed.

(** @example
Example C79_invalid_without_values_example :
  called p0 $"unknown-field"
  /\ construct_error env0 (fun _ => $"?") (fun _ => $"?") p0 (KEnumeration [VInt 1] None : kind) $"invalid" [] = py KeyError
  /\ construct_error env0 (fun _ => $"?") (fun _ => $"?") p0 (KBoolean : kind) $"invalid" []
     = Ok (message_entry $"invalid" $"invalid value" $"unknown-field must be a boolean value").
Proof. split; [reflexivity|]. split; vm_compute; reflexivity. Qed.
@end *)

Lemma shown_convert E repr fixed c v s : convert E repr fixed c v = Ok s <-> shown_as E repr fixed c v s.
Proof.
  assert (J : forall A (a b : A), Ok a = Ok b -> a = b) by (intros A a b Hab; now injection Hab).
  unfold convert. split.
  - intros H. destruct (N.eqb_spec c 115) as [->|N1].
    { apply J in H. subst s. destruct v; constructor; intros; discriminate. }
    destruct (N.eqb_spec c 114) as [->|N2]; [apply J in H; subst; constructor|].
    destruct (N.eqb_spec c 100) as [->|N3].
    { destruct v; try discriminate H; cbn [to_int] in H.
      - apply J in H; subst. destruct b; [exact (as_int_bool E repr fixed true)|exact (as_int_bool E repr fixed false)].
      - apply J in H; subst. constructor.
      - match type of H with match ?x with _ => _ end = _ => destruct x eqn:Z; [|discriminate] end. apply J in H; subst. now constructor.
      - match type of H with match ?x with _ => _ end = _ => destruct x eqn:Z; [|discriminate] end. apply J in H; subst. now constructor. }
    destruct (N.eqb_spec c 102) as [->|N4]; [|discriminate]. destruct (is_num v) eqn:I; [|discriminate].
    apply J in H; subst. destruct v; try discriminate I; constructor; constructor.
  - intros H. destruct H as [ | | |v N1 N2 N3| | |b|f z Z|d z Z|v H]; try reflexivity; cbn.
    + destruct v; try reflexivity; exfalso; first [exact (N1 _ eq_refl)|exact (N2 _ eq_refl)|exact (N3 _ eq_refl)].
    + destruct b; reflexivity.
    + rewrite Z. reflexivity.
    + rewrite Z. reflexivity.
    + destruct H; reflexivity.
Qed.

Lemma percent_name E repr fixed params name : ~ In 41%N name -> forall acc t,
  percent E repr fixed (SName acc) (name ++ 41%N :: t) params
  = percent E repr fixed (SConv (rev acc ++ name)) t params.
Proof.
  induction name as [|c name IH]; intros N acc t.
  - cbn [app percent]. rewrite N.eqb_refl. rewrite rev_append_rev. reflexivity.
  - cbn [app percent]. destruct (N.eqb_spec c 41) as [->|]; [exfalso; apply N; now left|].
    rewrite IH by (intros I; apply N; now right). cbn [rev]. rewrite <- app_assoc. reflexivity.
Qed.

Lemma name_ends E repr fixed params t : forall acc text,
  percent E repr fixed (SName acc) t params = Ok text ->
  exists name t', t = name ++ 41%N :: t' /\ ~ In 41%N name.
Proof.
  induction t as [|c t IH]; intros acc text H; [discriminate|]. cbn [percent] in H.
  destruct (N.eqb_spec c 41) as [->|Hn]; [exists [], t; split; [reflexivity|intros []]|].
  destruct (IH _ _ H) as (name & t' & -> & N). exists (c :: name), t'. split; [reflexivity|].
  intros [I|I]; [congruence|exact (N I)].
Qed.

(** @prop C79 Formatting a message replaces every "%(name)c" of the template by the parameter of that
    name, shown as text (s), by its representation (r), as an integer (d) or as a fixed-point number
    (f), and "%%" by "%", and leaves every other character as it is; it succeeds exactly if the template
    consists of such parts. *)
Lemma template_filled :
  forall E repr fixed params template text,
    percent E repr fixed SText template params = Ok text
    <-> filled E repr fixed params template text.
Proof.
  assert (J : forall A (a b : A), Ok a = Ok b -> a = b) by (intros A a b Hab; now injection Hab).
  intros E repr fixed params template text. split.
  - remember (length template) as n eqn:L. assert (Hn : (length template <= n)%nat) by lia. clear L.
    revert template Hn text. induction n as [|n IH]; intros [|c t] Hn text H.
    + apply J in H. subst text. constructor.
    + cbn [length] in Hn. lia.
    + apply J in H. subst text. constructor.
    + cbn [length] in Hn. cbn [percent] in H. destruct (N.eqb_spec c 37) as [->|Hc].
      * destruct t as [|c t]; [discriminate|]. cbn [percent] in H. cbn [length] in Hn.
        destruct (N.eqb_spec c 40) as [->|H40].
        { destruct (name_ends _ _ _ _ _ _ _ H) as (name & t' & -> & N).
          rewrite percent_name in H by exact N. cbn [rev app] in H.
          destruct t' as [|c t']; [discriminate|]. cbn [percent] in H.
          destruct (aget name params) as [v|] eqn:A; [|discriminate].
          destruct (convert E repr fixed c v) as [s|] eqn:C; [|discriminate]. cbn [bind] in H.
          destruct (percent E repr fixed SText t' params) as [r|] eqn:R; [|discriminate]. cbn [bind] in H.
          apply J in H. subst text. apply (filled_name E repr fixed params name c t' v s r); try assumption.
          - apply shown_convert, C.
          - apply IH; [|exact R]. rewrite app_length in Hn. cbn [length] in Hn. lia. }
        destruct (N.eqb_spec c 37) as [->|H37]; [|discriminate].
        destruct (percent E repr fixed SText t params) as [r|] eqn:R; [|discriminate]. cbn [bind] in H.
        apply J in H. subst text. apply (filled_percent E repr fixed params t r). apply IH; [lia|exact R].
      * destruct (percent E repr fixed SText t params) as [r|] eqn:R; [|discriminate]. cbn [bind] in H.
        apply J in H. subst text. constructor; [exact Hc|]. apply IH; [lia|exact R].
  - intros H. induction H as [|c t r Hc H IH|t r H IH|name c t v s r N A C H IH].
    + reflexivity.
    + cbn [percent]. destruct (N.eqb_spec c 37) as [->|_]; [congruence|]. rewrite IH. reflexivity.
    + change ($"%%" ++ t) with (37%N :: 37%N :: t). cbn [percent N.eqb Pos.eqb]. rewrite IH. reflexivity.
    + change ($"%(" ++ name ++ $")" ++ [c] ++ t) with (37%N :: 40%N :: (name ++ 41%N :: c :: t)).
      cbn [percent]. change ((37 =? 37)%N) with true. cbn iota. change ((40 =? 40)%N) with true. cbn iota.
      rewrite percent_name by exact N. cbn [rev app percent]. rewrite A.
      rewrite (proj2 (shown_convert E repr fixed c v s) C). cbn [bind]. rewrite IH. reflexivity.
Qed.

(** @example
Example C79_template_example :
  percent env0 (fun _ => []) (fun _ => []) SText $"%(field)s: 100%% of %(n)d" [($"field", VStr $"x"); ($"n", VInt 7)]
    = Ok $"x: 100% of 7"
  /\ percent env0 (fun _ => []) (fun _ => []) SText $"%(n)d" [($"n", VStr $"x")] = py TypeError.
Proof. split; vm_compute; reflexivity. Qed.
@end *)

Lemma field_errors_get errors : forall table tok,
  aget tok (field_errors table errors)
  = match find (fun e => str_eqb tok (fe_token e)) (rev errors) with
    | Some e => Some e
    | None => aget tok table
    end.
Proof.
  induction errors as [|e errors IH]; intros table tok; [reflexivity|].
  unfold field_errors in *. cbn [fold_left rev]. rewrite IH.
  assert (FA : forall (f : ferror -> bool) l x, find f (l ++ [x])
          = match find f l with Some y => Some y | None => if f x then Some x else None end).
  { clear. intros f l x. induction l as [|y l IH]; [reflexivity|]. cbn. destruct (f y); [reflexivity|exact IH]. }
  rewrite FA. destruct (find _ (rev errors)); [reflexivity|].
  destruct (str_eqb_spec tok (fe_token e)) as [->|N]; [apply aset_get_same|apply aset_get_other, N].
Qed.

Lemma error_found table errors tok e :
  (exists l1 l2, errors = l1 ++ e :: l2 /\ fe_token e = tok /\ ~ In tok (map fe_token l2))
  \/ (~ In tok (map fe_token errors) /\ aget tok table = Some e) -> aget tok (field_errors table errors) = Some e.
Proof.
  rewrite field_errors_get. intros [(l1 & l2 & -> & <- & N)|[N A]].
  - assert (F : find (fun x => str_eqb (fe_token e) (fe_token x)) (rev (l1 ++ e :: l2)) = Some e); [|rewrite F; reflexivity].
    rewrite rev_app_distr. cbn [rev]. rewrite <- !app_assoc.
    assert (M : forall x, In x (rev l2) -> str_eqb (fe_token e) (fe_token x) = false).
    { intros x Hx. apply in_rev in Hx. destruct (str_eqb_spec (fe_token e) (fe_token x)) as [Q|]; [|reflexivity].
      exfalso. apply N. rewrite Q. now apply in_map. }
    induction (rev l2) as [|y l IH]; cbn.
    + rewrite str_eqb_refl. reflexivity.
    + rewrite (M y (or_introl eq_refl)). apply IH. intros x Hx. apply M. now right.
  - assert (F : find (fun x => str_eqb tok (fe_token x)) (rev errors) = None); [|rewrite F; exact A].
    assert (M : forall x, In x (rev errors) -> str_eqb tok (fe_token x) = false).
    { intros x Hx. apply in_rev in Hx. destruct (str_eqb_spec tok (fe_token x)) as [Q|]; [|reflexivity].
      exfalso. apply N. rewrite Q. now apply in_map. }
    induction (rev errors) as [|y l IH]; cbn; [reflexivity|].
    rewrite (M y (or_introl eq_refl)). apply IH. intros x Hx. apply M. now right.
Qed.

Lemma aget_field_end (who : str) given : aget $"field" given = None ->
  aset $"field" (VStr who) given = given ++ [($"field", VStr who)].
Proof.
  induction given as [|[k v] l IH]; intros H; [reflexivity|]. cbn [aget aset] in *.
  destruct (str_eqb $"field" k); [discriminate|]. cbn [app]. rewrite IH by exact H. reflexivity.
Qed.

(** @prop C79 A field made with the parameter 'errors' reports a token with the title and the message of
    the last error given for it, and with those of its class if none is given or if it is an Email; the message is filled
    with what the caller gives, and with the name of the field unless the caller says what it is called. *)
Lemma errors_given :
  forall E repr fixed p (k : kind) errors tok e who given entry,
    error_of k errors tok e -> fe_token e = tok -> called p who ->
    (construct_given E repr fixed p k errors tok given = Ok entry
     <-> exists text, filled E repr fixed (with_field who given) (fe_message e) text
                      /\ entry = message_entry tok (fe_title e) text).
Proof.
  intros E repr fixed p k errors tok e who given entry He Ht Hc. unfold construct_given, construct_entry.
  assert (G : aget tok (field_errors (error_table k) match k with KEmail _ _ _ _ => [] | _ => errors end) = Some e).
  { apply error_found. destruct He as [[Hk He]|[[(m & x & mn & mx & ->)|He] A]].
    - left. destruct k; try exact He. exfalso. apply Hk. now repeat eexists.
    - right. split; [intros []|exact A].
    - right. destruct k; (split; [first [exact He|intros []]|exact A]). }
  rewrite G. clear G.
  assert (HF : format_message E repr fixed p (fe_message e) given
               = percent E repr fixed SText (fe_message e) (with_field who given)).
  { unfold format_message, with_field. destruct (aget $"field" given) eqn:G; [reflexivity|].
    rewrite aget_field_end by exact G. unfold called in Hc.
    destruct (p_name p) as [[|c s]|]; [destruct Hc as [[H _]|[_ ->]]; [congruence|reflexivity]| |subst who; reflexivity].
    destruct Hc as [[_ ->]|[H _]]; [reflexivity|discriminate]. }
  rewrite HF. split.
  - intros H. destruct (percent _ _ _ _ _ _) as [text|] eqn:P; [|discriminate]. cbn [bind] in H. injection H as <-.
    exists text. split; [apply template_filled, P|]. unfold message_entry. rewrite Ht. reflexivity.
  - intros (text & F & ->). apply template_filled in F. rewrite F. cbn [bind]. unfold message_entry. rewrite Ht. reflexivity.
Qed.

(** @example
Example C79_errors_given_example :
  let e1 := {| fe_token := $"invalid"; fe_title := $"t1"; fe_message := $"m1" |} in
  let e2 := {| fe_token := $"invalid"; fe_title := $"t2"; fe_message := $"no %(field)s" |} in
  error_of KBoolean [e1; e2] $"invalid" e2 /\ called p0 $"unknown-field"
  /\ construct_given env0 (fun _ => []) (fun _ => []) p0 (KBoolean : kind) [e1; e2]
       $"invalid" [] = Ok (message_entry $"invalid" $"t2" $"no unknown-field")
  /\ construct_given env0 (fun _ => []) (fun _ => []) p0 (KBoolean : kind) [e1; e2]
       $"invalid" [($"field", VStr $"x")] = Ok (message_entry $"invalid" $"t2" $"no x").
Proof.
  split; [left; split; [intros (m & x & mn & mx & H); discriminate|]; exists [{| fe_token := $"invalid"; fe_title := $"t1"; fe_message := $"m1" |}], []; split; [reflexivity|];
          split; [reflexivity|intros []]|].
  split; [reflexivity|]. split; vm_compute; reflexivity.
Qed.
@end *)

(** @prop C79 As stated the claim fails: the message about a surrogate that is not among the valid ones
    asks for a parameter under another name than the one it is given
    (/repo/scheme/fields/surrogate.py:18, 67), so KeyError escapes whatever the field. *)
Lemma surrogate_message_refuted :
  exists tok, forall E repr fixed p valid key,
    In tok (map fst (error_table (KSurrogate valid : kind)))
    /\ construct_error E repr fixed p (KSurrogate valid : kind) tok
         (arguments E repr (KSurrogate valid : kind) tok key) = py KeyError.
Proof.
  exists $"invalid-surrogate". intros E repr fixed p valid key. split; [right; right; right; left; reflexivity|].
  unfold construct_error, construct_entry.
  change (aget $"invalid-surrogate" (error_table (KSurrogate valid : kind)))
    with (Some {| fe_token := $"invalid-surrogate"; fe_title := $"invalid surrogate";
                  fe_message := $"%(field)s must be one of %(surrogate)s" |}).
  unfold format_message. destruct valid, (p_name p) as [[|? ?]|]; reflexivity.
Qed.

(** @prop C79 Nor does the message about the bound of a DateTime field name the bound: the field keeps it
    in local time, and the message shows that reading with a 'Z'. *)
Lemma datetime_bound_message_refuted :
  exists E cl p mn,
    init E cl CDateTime [($"minimum", VDateTime (DateTime (Date 2020 1 1) (Tod 0 0 0 0) (Some TzUTC)))]
      = Ok (Fld p (KDateTime (Some mn) None false))
    /\ forall repr fixed key,
         construct_error E repr fixed p (KDateTime (Some mn) None false : kind) $"minimum"
           (arguments E repr (KDateTime (Some mn) None false : kind) $"minimum" key)
         = Ok (message_entry $"minimum" $"minimum value" $"unknown-field must not occur before 2020-01-01T01:00:00Z").
Proof.
  exists env0, (fun f _ => Ok f). eexists. eexists. split; [vm_compute; reflexivity|].
  intros. vm_compute. reflexivity.
Qed.

(** @prop C45 An Email, whatever errors its constructor or [clone] is given, reports those of its class: a
    clone has the errors of the original. *)
Lemma clone_errors_email :
  forall E repr fixed mu ex mn mx own given p errors token args,
    let k : kind := KEmail mu ex mn mx in
    clone_errors k own given = Ok own
    /\ construct_given E repr fixed p k errors token args = construct_given E repr fixed p k [] token args.
Proof. intros. split; reflexivity. Qed.

(** @example
Example C45_email_errors_example :
  let k : kind := KEmail false false None None in
  exists own, init_errors (error_table (KText None None None false : kind)) (ErrorList [{| fe_token := $"pattern"; fe_title := $"invalid value"; fe_message := $"no" |}]) = Ok (Some own)
  /\ clone_errors k (Some own) None = Ok (Some own) /\ clone_errors k (Some own) (Some []) = Ok (Some own).
Proof. eexists. split; [vm_compute; reflexivity|]. split; reflexivity. Qed.
@end *)

(** @prop C45 The errors given to a constructor cannot be cloned: a field made with some, of any class but
    Email, raises AttributeError when cloned, unless other errors are given; a field made without is
    cloned without. *)
Lemma clone_errors_exact :
  forall (k : kind) errors own,
    (forall m x mn mx, k <> KEmail m x mn mx) ->
    init_errors (error_table k) (ErrorList errors) = Ok own ->
    (errors <> [] -> clone_errors k own None = py AttributeError)
    /\ (errors = [] -> clone_errors k own None = Ok None)
    /\ forall others, clone_errors k own (Some others) = init_errors (error_table k) (ErrorList others).
Proof.
  intros k errors own Hk H.
  assert (Hn : error_table k <> []) by (destruct k; try discriminate; intros Hx; vm_compute in Hx; discriminate).
  assert (Hf : forall l t, t <> [] -> field_errors t l <> []).
  { induction l as [|e l IH]; intros t Ht; [exact Ht|]. cbn [field_errors fold_left]. apply IH.
    destruct t as [|[a b] t]; [congruence|]. cbn [aset]. destruct (str_eqb _ _); discriminate. }
  assert (Hc : forall given, clone_errors k own given
     = match given, own with
       | Some l, _ => init_errors (error_table k) (ErrorList l)
       | None, Some t => init_errors (error_table k) (ErrorTable t)
       | None, None => Ok None
       end).
  { intros given. destruct k; try reflexivity. exfalso. eapply Hk. reflexivity. }
  rewrite Hc. split; [|split].
  - intros He. destruct errors as [|e l]; [congruence|].
    change (Ok (Some (field_errors (error_table k) (e :: l))) = Ok own) in H. specialize (Hf (e :: l) _ Hn).
    destruct (field_errors (error_table k) (e :: l)); [congruence|]. injection H as <-. reflexivity.
  - intros ->. cbn [init_errors] in H. injection H as <-. reflexivity.
  - intros others. rewrite Hc. reflexivity.
Qed.

(** @example
Example C45_errors_example :
  let e := {| fe_token := $"invalid"; fe_title := $"t"; fe_message := $"no %(field)s" |} in
  exists own, init_errors (error_table (KBoolean : kind)) (ErrorList [e]) = Ok (Some own)
  /\ clone_errors (KBoolean : kind) (Some own) None = py AttributeError.
Proof. eexists. split; [reflexivity|]. vm_compute. reflexivity. Qed.
@end *)

(** @prop C45 As stated the claim fails for fields with errors of their own. *)
Lemma clone_errors_refuted :
  exists (k : kind) e own,
    init_errors (error_table k) (ErrorList [e]) = Ok (Some own) /\ clone_errors k (Some own) None = py AttributeError.
Proof.
  exists KBoolean, {| fe_token := $"invalid"; fe_title := $"t"; fe_message := $"no" |}. eexists. split; [reflexivity|]. vm_compute. reflexivity.
Qed.
