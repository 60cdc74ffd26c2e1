(** Property theorems proved in CarryProofs.v (generated by tools/mkprops.py). *)
From Verif Require Import Spec Demo RtSpec JsonSpec IoSpec CarrySpec CarryProofs.
Open Scope Z_scope.

(** C80.  For every value that conforms to a schema of types JSON can carry, serializing it with the
    format json gives a printable text, and unserializing that text gives exactly the value.  Values whose
    text form is lossy by design are excluded, as for serialization itself ([faithful]). *)
Theorem C80_fields_through_json_partial :
  forall E wrap load desc recon n f v k,
    throughout E well_keyed f -> throughout E (tidy E) f -> throughout E (portable E) f -> throughout E (json_portable E) f ->
    conforms E n f v -> (forall kd x, meets E f v kd x -> faithful E desc recon kd x /\ json_faithful E desc kd x) ->
    keyed (Json E) k ->
    let reg := formats E wrap load in
    exists t,
      field_serialize E desc recon n reg f v (Some k) = Ok (VStr t)
      /\ (forall c, In c t -> (32 <= c <= 126)%N)
      /\ field_unserialize E desc recon n reg f t k = Ok v.
Proof. exact fields_through_json_partial. Qed.
Print Assumptions C80_fields_through_json_partial.

(* A map from numbers to pairs of a day and an amount. *)
Definition f80 : field := Fld p0 (KMap (Fld p0 (KTuple [Fld p0 (KDate None None); Fld p0 (KDecimal None None)]))
                                   (Some (Fld p_nn (KInteger None None))) None).
Definition v80 : val := VDict false [(VInt (-7), VTuple [VDate (Date 2024 2 29); VDec (DFin true 150 (-2)%Z)]); (VInt 8, VNone)].
Definition reg80 : registry := formats env0 (fun _ t => [t]) (fun _ => Ok VNone).
Lemma sub80 (P : params -> kind -> Prop) :
  P p0 (KMap (Fld p0 (KTuple [Fld p0 (KDate None None); Fld p0 (KDecimal None None)])) (Some (Fld p_nn (KInteger None None))) None) ->
  P p0 (KTuple [Fld p0 (KDate None None); Fld p0 (KDecimal None None)]) -> P p_nn (KInteger None None) ->
  P p0 (KDate None None) -> P p0 (KDecimal None None) -> throughout env0 P f80.
Proof.
  intros H1 H2 H3 H4 H5. split; [|discriminate]. constructor; [exact H1|].
  intros g [<-|[<-|[]]]; constructor; [exact H2| |exact H3|intros ? []].
  intros g [<-|[<-|[]]]; constructor; [exact H4|intros ? []|exact H5|intros ? []].
Qed.
Example C80_fields_example :
  throughout env0 well_keyed f80 /\ throughout env0 (tidy env0) f80 /\ throughout env0 (portable env0) f80 /\ throughout env0 (json_portable env0) f80
  /\ conforms env0 3 f80 v80 /\ (forall kd x, meets env0 f80 v80 kd x -> faithful env0 nodesc norecon kd x /\ json_faithful env0 nodesc kd x)
  /\ keyed (Json env0) (ByText $"json")
  /\ field_serialize env0 nodesc norecon 3 reg80 f80 v80 (Some (ByText $"json"))
     = Ok (VStr $"{""-7"": [""2024-02-29"", ""-1.50""], ""8"": null}")
  /\ field_unserialize env0 nodesc norecon 3 reg80 f80 $"{""-7"": [""2024-02-29"", ""-1.50""], ""8"": null}" (ByText $"json") = Ok v80.
Proof.
  split; [apply sub80; exact I|]. split; [apply sub80; repeat (split; auto; try reflexivity)|].
  split; [apply sub80; try exact I; exists p_nn, (KInteger None None); split; [reflexivity|left; reflexivity]|].
  split; [apply sub80; try exact I; exists p_nn, (KInteger None None); repeat split|].
  split.
  { right. split; [discriminate|]. eexists. split; [reflexivity|]. split; [|split; [|discriminate]].
    - split; [|split; [intros ? []|exact I]]. intros k' [<-|[]]. reflexivity.
    - constructor; [|constructor; [|constructor]]; cbn [fst snd].
      + split; [right; split; [discriminate|]; split; [eexists; split; [reflexivity|split; discriminate]|split; [left; reflexivity|intros _; split; [discriminate|exact I]]]|].
        split; [reflexivity|]. split; [discriminate|]. right. split; [discriminate|]. eexists. split; [reflexivity|].
        constructor; [|constructor; [|constructor]].
        * right. split; [discriminate|]. split; [|split; [left; reflexivity|intros _; split; [discriminate|exact I]]].
          left. eexists. split; [reflexivity|split; discriminate].
        * right. split; [discriminate|]. split; [|split; [left; reflexivity|intros _; split; [discriminate|exact I]]].
          eexists. split; [reflexivity|]. split; [left; split; reflexivity|split; discriminate].
      + split; [right; split; [discriminate|]; split; [eexists; split; [reflexivity|split; discriminate]|split; [left; reflexivity|intros _; split; [discriminate|exact I]]]|].
        split; [reflexivity|]. split; [discriminate|]. left. split; reflexivity. }
  split.
  { intros kd x Hx. unfold f80, v80 in Hx. inversion Hx; subst; clear Hx.
    - split; right; [intros o l d y [= <- <-] [H|[H|[]]]; discriminate|intros o l s y [= <- <-] [H|[H|[]]]; discriminate].
    - match goal with H : In _ _ |- _ => destruct H as [H|[H|[]]]; injection H as <- <- end;
        match goal with H : meets _ _ _ _ _ |- _ => inversion H; subst end; split; right; exact I.
    - match goal with H : In _ _ |- _ => destruct H as [H|[H|[]]]; injection H as <- <- end;
        match goal with H : meets _ _ _ _ _ |- _ => inversion H; subst; clear H end;
        [split; right; exact I| |split; right; exact I].
      destruct i as [|[|i]]; [| |destruct i; discriminate].
      + match goal with H : nth_error _ _ = Some _, H' : nth_error _ _ = Some _ |- _ => injection H as <-; injection H' as <- end.
        match goal with H : meets _ _ _ _ _ |- _ => inversion H; subst; clear H end. split; [|right; exact I].
        right. exists (Date 2024 2 29). split; [reflexivity|]. split; [|right; cbn; lia].
        split; [cbn; lia|]. exists 29%Z. split; [|cbn; lia]. apply ml_leap. split; [exists 506%Z; reflexivity|]. left. intros [z Hz]. cbn in Hz. lia.
      + match goal with H : nth_error _ _ = Some _, H' : nth_error _ _ = Some _ |- _ => injection H as <-; injection H' as <- end.
        match goal with H : meets _ _ _ _ _ |- _ => inversion H; subst; clear H end. split; right; exact I. }
  split; [left; reflexivity|]. split; vm_compute; reflexivity.
Qed.

(** C80.  So for files: such a value can be written wherever the file may be opened, with the format
    named or taken from the extension of the path, and the field reads exactly the value from the file;
    no other file changes. *)
Theorem C80_fields_in_json_files_partial :
  forall E wrap load desc recon n f v w path format quiet,
    throughout E well_keyed f -> throughout E (tidy E) f -> throughout E (portable E) f -> throughout E (json_portable E) f ->
    conforms E n f v -> (forall kd x, meets E f v kd x -> faithful E desc recon kd x /\ json_faithful E desc kd x) ->
    (exists k, format = Some k /\ keyed (Json E) k) \/ format = None /\ path_with path $"json" ->
    path <> [] -> w_readable w path = true -> w_writable w path = true -> w_node w path <> Some Folder ->
    let reg := formats E wrap load in
    exists w',
      field_write E desc recon n reg w f path v format = (Ok tt, w')
      /\ field_read E desc recon n reg w' f path format quiet = Ok v
      /\ only_changed path w w'.
Proof. exact fields_in_json_files_partial. Qed.
Print Assumptions C80_fields_in_json_files_partial.

Example C80_files_example :
  path_with $"/tmp/data.json" $"json"
  /\ let w := {| w_node := fun _ => None; w_readable := fun _ => true; w_writable := fun _ => true |} in
     let r := field_write env0 nodesc norecon 3 reg80 w f80 $"/tmp/data.json" v80 None in
     fst r = Ok tt /\ field_read env0 nodesc norecon 3 reg80 (snd r) f80 $"/tmp/data.json" None false = Ok v80.
Proof.
  split; [|split; vm_compute; reflexivity].
  exists $"/tmp/", $"data". split; [reflexivity|]. split; [right; exists $"/tmp"; reflexivity|].
  split; [cbn; intuition discriminate|]. split; [exists 100%N; split; [left; reflexivity|discriminate]|].
  split; cbn; intuition discriminate.
Qed.

(** C80.  Whatever the schema, when the serialized form of a value has something JSON does not know,
    serializing it with the format json is a TypeError; otherwise it succeeds. *)
Theorem C80_fields_refused_by_json :
  forall E wrap load desc recon n f v w k,
    process_gen E desc recon n f false Outbound true [] v = Ok w -> keyed (Json E) k ->
    let reg := formats E wrap load in
    (~ dumpable w -> field_serialize E desc recon n reg f v (Some k) = py TypeError)
    /\ (dumpable w -> exists t, field_serialize E desc recon n reg f v (Some k) = Ok (VStr t)).
Proof. exact fields_refused_by_json. Qed.
Print Assumptions C80_fields_refused_by_json.

Example C80_refused_example :
  let f := Fld p0 (KSequence (Fld p0 (KBinary None None)) None None false) in
  process_gen env0 nodesc norecon 3 f false Outbound true [] (VList [VBytes [1%N]]) = Ok (VList [VBytes $"AQ=="])
  /\ ~ dumpable (VList [VBytes $"AQ=="])
  /\ field_serialize env0 nodesc norecon 3 reg80 f (VList [VBytes [1%N]]) (Some (ByText $"json")) = py TypeError.
Proof.
  split; [vm_compute; reflexivity|]. split; [|vm_compute; reflexivity].
  intros H. inversion H as [| | | | |l Hl| |v l Hl _]; [|discriminate Hl]. specialize (Hl _ (or_introl eq_refl)).
  inversion Hl as [| | | | | | |v' l' Hl' _]. discriminate Hl'.
Qed.

(** C80.  Some schemas cannot use the format: the only text of JSON a Binary field writes is that of
    null. *)
Theorem C80_binary_as_json :
  forall E wrap load desc recon n p mn mx v k t,
    keyed (Json E) k ->
    field_serialize E desc recon n (formats E wrap load) (Fld p (KBinary mn mx)) v (Some k) = Ok (VStr t) ->
    v = VNone /\ t = $"null".
Proof. exact binary_as_json. Qed.
Print Assumptions C80_binary_as_json.

Example C80_binary_example :
  field_serialize env0 nodesc norecon 3 reg80 (Fld p0 (KBinary None None)) VNone (Some (ByText $"json")) = Ok (VStr $"null").
Proof. vm_compute. reflexivity. Qed.

(** C80.  Without these exclusions the claim is false: a conforming value of a Binary field cannot be
    written as JSON; that of an Error field can be written but not read, because its pair becomes a list;
    and a map with a null key is read with the key ['null'].  All of them survive serialization itself. *)
Theorem C80_fields_through_json_refuted :
  let reg := formats env0 (fun _ t => [t]) (fun _ => Ok VNone) in
  let json := ByText $"json" in
  let survives f v := conforms env0 5 f v /\ exists w, run0 f Outbound true v = Ok w /\ run0 f Inbound true w = Ok v in
  (exists f v, survives f v /\ field_serialize env0 nodesc norecon 5 reg f v (Some json) = py TypeError)
  /\ (exists f v t, survives f v
        /\ field_serialize env0 nodesc norecon 5 reg f v (Some json) = Ok (VStr t)
        /\ field_unserialize env0 nodesc norecon 5 reg f t json = invalid_type [$"(error)"])
  /\ (exists f v t v', survives f v /\ v <> v'
        /\ field_serialize env0 nodesc norecon 5 reg f v (Some json) = Ok (VStr t)
        /\ field_unserialize env0 nodesc norecon 5 reg f t json = Ok v').
Proof. exact fields_through_json_refuted. Qed.
Print Assumptions C80_fields_through_json_refuted.
