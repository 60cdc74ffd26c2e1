(** Property theorems proved in ConfProofs.v (generated by tools/mkprops.py). *)
From Verif Require Import Spec Demo ConfProofs.

(** C31.  Soundness for whole schemas: whatever an Inbound [process] returns, of serialized or
    native input, at any nesting, conforms to the field: types, bounds, lengths, patterns,
    enumerations and constants, required keys, and no value where null is refused.  Hypotheses:
    definitions are dicts as the constructor leaves them, user preprocessors and imports do not
    return null. *)
Theorem C31_process_sound :
  forall E desc recon n f ser anc v r,
    throughout E well_keyed f -> throughout E (null_free E) f ->
    process_gen E desc recon n f false Inbound ser anc v = Ok r ->
    conforms E n f r.
Proof. exact process_sound. Qed.
Print Assumptions C31_process_sound.

(* The result of unserializing a nested document conforms to the schema; [conforms] is not trivial:
   it refuses other values. *)
Example C31_example :
  let f := Fld p0 (KStructure (SPlain [($"a", Fld p_req (KInteger (Some 1%Z) None));
                                       ($"b", Fld p_nn (KSequence (Fld p_nn (KText None None None true)) None None true))])
                              true None) in
  run0 f Inbound true (VDict false [(VStr $"b", VList [VStr $" x "; VStr $"y"]); (VStr $"a", VStr $"7")])
  = Ok (VDict false [(VStr $"a", VInt 7); (VStr $"b", VList [VStr $"x"; VStr $"y"])])
  /\ throughout env0 well_keyed f
  /\ ~ conforms env0 5 f (VDict false [(VStr $"a", VInt 0)]).
Proof.
  split; [reflexivity|]. split.
  - split; [|discriminate]. constructor.
    + cbn. split; [|exact I]. repeat constructor; cbn; intuition discriminate.
    + intros g [<-|[<-|[]]]; constructor; [exact I|intros ? []|exact I|].
      intros ? [<-|[]]. constructor; [exact I|intros ? []].
  - intros [[H _]|[_ [l [H [_ [Hc _]]]]]]; [discriminate|]. injection H as <-.
    destruct (Hc $"a" (VInt 0) (or_introl eq_refl)) as [c [[Hin|[Hin|[]]] Hx]]; [|discriminate].
    injection Hin as <-. destruct Hx as [[H _]|[_ [[z [Hz [H _]]] _]]]; [discriminate|].
    injection Hz as <-. specialize (H 1%Z eq_refl). lia.
Qed.

(** C32.  Completeness: in a schema without preprocessors, ignored nulls, constants on fields that
    normalise, and unions of which an earlier alternative stands in the way of a later one, every conforming native value is accepted, at any nesting, and returned unchanged. *)
Theorem C32_process_complete_partial :
  forall E desc recon n f anc v,
    throughout E well_keyed f -> throughout E (tidy E) f ->
    conforms E n f v ->
    process_gen E desc recon n f false Inbound false anc v = Ok v.
Proof. exact process_complete_partial. Qed.
Print Assumptions C32_process_complete_partial.

(* A document with an optional key left out and a null where null is allowed. *)
Example C32_example :
  let f := Fld p0 (KStructure (SPlain [($"a", Fld p_req (KInteger (Some 1%Z) None));
                                       ($"b", Fld p0 (KSequence (Fld p0 (KText None None None true)) None None false));
                                       ($"c", Fld p0 KBoolean)]) true None) in
  let v := VDict false [(VStr $"a", VInt 3); (VStr $"b", VList [VStr $"x"; VNone])] in
  throughout env0 well_keyed f /\ throughout env0 (tidy env0) f /\ conforms env0 0 f v
  /\ run0 f Inbound false v = Ok v.
Proof.
  assert (Hst : stripped $"x" $"x").
  { exists [], []. rewrite app_nil_r. cbn [app]. split; [reflexivity|]. split; [constructor|]. split; [constructor|].
    split; [intros c r [= <- _]; reflexivity|]. intros c r H. destruct r as [|x [|]]; try discriminate.
    injection H as <-. reflexivity. }
  repeat split; try discriminate.
  - constructor.
    + cbn. split; [|exact I]. repeat constructor; cbn; intuition discriminate.
    + intros g [<-|[<-|[<-|[]]]]; constructor; [exact I|intros ? []|exact I| |exact I|intros ? []].
      intros ? [<-|[]]. constructor; [exact I|intros ? []].
  - constructor.
    + repeat split; discriminate.
    + intros g [<-|[<-|[<-|[]]]]; constructor;
        [repeat split; discriminate|intros ? []|repeat split; discriminate| |repeat split; discriminate|intros ? []].
      intros ? [<-|[]]. constructor; [repeat split; reflexivity|]. intros ? [].
  - right. split; [discriminate|]. eexists. split; [reflexivity|]. split; [|split].
    + apply sublist_take, sublist_take, sublist_skip, sublist_nil.
    + intros k y [H|[H|[]]]; injection H as <- <-.
      * eexists. split; [left; reflexivity|]. right. split; [discriminate|]. split; [|split; [left; reflexivity|intros _; split; [discriminate|exact I]]].
        exists 3%Z. split; [reflexivity|]. split; intros m [= <-]; lia.
      * eexists. split; [right; left; reflexivity|]. right. split; [discriminate|].
        eexists. split; [reflexivity|]. split; [discriminate|]. split; [discriminate|].
        split; [|discriminate]. constructor; [right|constructor; [left; auto|constructor]].
        split; [discriminate|]. split; [|split; [left; reflexivity|intros _; split; [discriminate|exact I]]].
        exists $"x". split; [reflexivity|]. split; [exact Hst|]. repeat split; discriminate.
    + intros k c _ Hin Hno. exists p0. destruct Hin as [H|[H|[H|[]]]]; injection H as <- <-.
      * exfalso. apply Hno. left. reflexivity.
      * exfalso. apply Hno. right. left. reflexivity.
      * split; [reflexivity|]. right. split; reflexivity.
Qed.

(* [Boolean | Enumeration of texts | Integer from 5 | Sequence | Tuple | Text]: the text passes all others.
   [Integer from 5 | Integer] is not such a union. *)
Example C32_union_example :
  let text := Fld p0 (KText None None None true) in
  let f := Fld p0 (KUnion [Fld p0 KBoolean; Fld p0 (KEnumeration [VStr $"all"] None);
                           Fld p0 (KInteger (Some 5%Z) None); Fld p0 (KSequence text None None false);
                           Fld p0 (KTuple [text]); text]) in
  throughout env0 well_keyed f /\ throughout env0 (tidy env0) f
  /\ conforms env0 0 f (VStr $"x") /\ run0 f Inbound false (VStr $"x") = Ok (VStr $"x")
  /\ ~ tidy env0 p0 (KUnion [Fld p0 (KInteger (Some 5%Z) None); Fld p0 (KInteger None None)]).
Proof.
  assert (Hst : stripped $"x" $"x").
  { exists [], []. rewrite app_nil_r. cbn [app]. split; [reflexivity|]. split; [constructor|]. split; [constructor|].
    split; [intros c r [= <- _]; reflexivity|]. intros c r H. destruct r as [|x [|]]; try discriminate.
    injection H as <-. reflexivity. }
  assert (Hte : forall P : params -> kind -> Prop, P p0 (KText None None None true) ->
                everywhere P (Fld p0 (KText None None None true))).
  { intros P HP. constructor; [exact HP|intros ? []]. }
  split; [|split; [|split; [|split; [reflexivity|]]]].
  - split; [|discriminate]. constructor; [exact I|].
    intros g [<-|[<-|[<-|[<-|[<-|[<-|[]]]]]]]; (constructor; [exact I|]); intros ? Hg; cbn in Hg;
      try contradiction; destruct Hg as [<-|[]]; apply Hte; exact I.
  - split; [|discriminate]. constructor.
    + split; [reflexivity|]. split; [reflexivity|]. split; [discriminate|]. split.
      * repeat constructor; cbn; try congruence; intros [].
      * repeat first [apply FOP_cons | apply Forall_cons | apply FOP_nil | apply Forall_nil];
          (split; [reflexivity|]).
        all: try (left; repeat constructor; fail).
        all: right; (split; [exact I|]); intros w Hi Hn; destruct Hi as [Hi|Hi]; cbn in Hi, Hn;
          repeat match goal with H : exists _, _ |- _ => destruct H end; subst; try discriminate; contradiction.
    + intros g [<-|[<-|[<-|[<-|[<-|[<-|[]]]]]]]; (constructor; [repeat split; try discriminate|]); cbn.
      all: try (intros ? Hg; cbn in Hg; try contradiction; destruct Hg as [<-|[]]; apply Hte; repeat split; discriminate).
      intros x [[<-|[]]|[]]; reflexivity.
  - right. split; [discriminate|]. eexists. split; [do 5 right; left; reflexivity|]. right. split; [discriminate|].
    split; [|split; [left; reflexivity|intros _; split; [discriminate|exact I]]].
    exists $"x". split; [reflexivity|]. split; [exact Hst|]. repeat split; discriminate.
  - intros [_ [_ [_ [_ H]]]]. inversion H as [|? ? Hp _]; subst. inversion Hp as [|? ? Hq _]; subst.
    destruct Hq as [_ [[]|[_ Hd]]]. apply (Hd (VInt 3)); [left|]; eexists; reflexivity.
Qed.

(** C32.  Why not every union is covered: a value that conforms to the second alternative of a union is
    refused when the first one rejects it for another reason than its type. *)
Theorem C32_process_complete_refuted :
  exists E desc recon n f v e,
    throughout E well_keyed f
    /\ conforms E n f v
    /\ process_gen E desc recon n f false Inbound false [] v = Raise (XErr e).
Proof. exact process_complete_refuted. Qed.
Print Assumptions C32_process_complete_refuted.

(** C33.  Idempotence: in such a schema, processing a result again returns it unchanged,
    whether the first input was serialized or native. *)
Theorem C33_process_idempotent_partial :
  forall E desc recon n f ser anc anc' v r,
    throughout E well_keyed f -> throughout E (tidy E) f -> throughout E (null_free E) f ->
    process_gen E desc recon n f false Inbound ser anc v = Ok r ->
    process_gen E desc recon n f false Inbound false anc' r = Ok r.
Proof. exact process_idempotent_partial. Qed.
Print Assumptions C33_process_idempotent_partial.

(* Stripped text and a date time moved to UTC: the second pass changes nothing. *)
Example C33_example :
  let f := Fld p0 (KTuple [Fld p0 (KText None None None true); Fld p0 (KDateTime None None true)]) in
  let r := VTuple [VStr $"x"; VDateTime (DateTime (Date 2020 1 1) (Tod 11 0 0 0) (Some TzUTC))] in
  run0 f Inbound false (VTuple [VStr $" x "; VDateTime (DateTime (Date 2020 1 1) (Tod 12 0 0 0) (Some TzLocal))]) = Ok r
  /\ run0 f Inbound false r = Ok r.
Proof. split; vm_compute; reflexivity. Qed.
(* Addresses are lower-cased and separated by commas once and for all; lower case is as in Unicode. *)
Example C33_email_example :
  let f := Fld p0 (KEmail true false None None) in
  lowers env0
  /\ run0 f Inbound false (VStr $" A@Example.com;  b@example.COM,") = Ok (VStr $"a@example.com,b@example.com")
  /\ run0 f Inbound false (VStr $"a@example.com,b@example.com") = Ok (VStr $"a@example.com,b@example.com").
Proof.
  split; [|split; vm_compute; reflexivity]. intros c Hc. split; [discriminate|]. intros d [<-|[]].
  split; [|split; [lia|reflexivity]]. intros H. unfold separator in H. cbn in H. lia.
Qed.

(** C33.  Why fields that normalise must not carry a constant: [Text(constant=' a ')] accepts
    [' a '], returns ['a'], and refuses ['a']. *)
Theorem C33_process_idempotent_refuted :
  exists E desc recon n f v r e,
    throughout E well_keyed f
    /\ process_gen E desc recon n f false Inbound false [] v = Ok r
    /\ process_gen E desc recon n f false Inbound false [] r = Raise (XErr e).
Proof. exact process_idempotent_refuted. Qed.
Print Assumptions C33_process_idempotent_refuted.
