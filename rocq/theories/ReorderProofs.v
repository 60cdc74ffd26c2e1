(** * The round trip through a transport that loses the order of the entries of dicts (C34, C80). *)
(* @imports Spec Demo RtSpec SurrogateSpec JsonSpec IoSpec CarrySpec MailSpec OrderSpec *)
From Verif Require Import Spec Demo RtSpec SurrogateSpec RtProofs SurrogateProofs JsonProofs IoSpec IoProofs CarrySpec CarryProofs MailSpec MailProofs OrderSpec OrderProofs.

(** @prop C34 The serialized form of a value need not keep the order of the entries of its dicts: whatever order
    those of the structures come back in, at any depth, the value is read from it. *)
Lemma round_trip_reordered_partial :
  forall E desc recon n f v,
    throughout E well_keyed f -> throughout E (tidy E) f -> throughout E (portable E) f ->
    conforms E n f v -> (forall k x, meets E f v k x -> faithful E desc recon k x) ->
    exists w,
      (forall anc, process_gen E desc recon n f false Outbound true anc v = Ok w)
      /\ forall w', shuffled E f w w' ->
           forall anc, process_gen E desc recon n f false Inbound true anc w' = Ok v.
Proof.
  intros E desc recon n f v H1 H2 H3 H4 H5.
  destruct (serialization_round_trip_partial E desc recon n f v H1 H2 H3 H4 H5) as [w [Ho Hi]].
  exists w. split; [exact Ho|]. intros w' Hw anc.
  destruct (order_irrelevant E desc recon n f false Inbound true anc w w' Hw) as [H|[e [e' [H _]]]]; rewrite Hi in H;
    [symmetry; exact H|discriminate].
Qed.

(** @example
(* The dict comes back with its keys the other way round. *)
Example C34_reordered_example :
  let f := Fld p0 (KStructure (SPlain [($"a", Fld p_req (KInteger (Some 1%Z) None)); ($"c", Fld p0 KBoolean)]) true None) in
  let v := VDict false [(VStr $"a", VInt 3); (VStr $"c", VBool true)] in
  let w := VDict false [(VStr $"c", VBool true); (VStr $"a", VInt 3)] in
  (throughout env0 well_keyed f /\ throughout env0 (tidy env0) f /\ throughout env0 (portable env0) f)
  /\ (conforms env0 0 f v /\ forall k x, meets env0 f v k x -> faithful env0 nodesc norecon k x)
  /\ shuffled env0 f v w
  /\ run0 f Outbound true v = Ok v /\ run0 f Inbound true w = Ok v.
Proof.
  cbv zeta. split; [split; [|split]|split; [split|split; [|split; reflexivity]]].
  - split; [|discriminate]. constructor.
    + cbn. split; [|exact I]. repeat constructor; cbn; intuition discriminate.
    + intros g [<-|[<-|[]]]; constructor; [exact I|intros ? []|exact I|intros ? []].
  - split; [|discriminate]. constructor.
    + repeat split; discriminate.
    + intros g [<-|[<-|[]]]; constructor; [repeat split; discriminate|intros ? []|repeat split; discriminate|intros ? []].
  - split; [|discriminate]. constructor; [exact I|]. intros g [<-|[<-|[]]]; constructor; [exact I|intros ? []|exact I|intros ? []].
  - right. split; [discriminate|]. eexists. split; [reflexivity|]. split; [|split].
    + apply sublist_take, sublist_take, sublist_nil.
    + intros k y [H|[H|[]]]; injection H as <- <-.
      * eexists. split; [left; reflexivity|]. right. split; [discriminate|]. split; [|split; [left; reflexivity|intros _; split; [discriminate|exact I]]].
        exists 3%Z. split; [reflexivity|]. split; intros m [= <-]; lia.
      * eexists. split; [right; left; reflexivity|]. right. split; [discriminate|]. split; [|split; [left; reflexivity|intros _; split; [discriminate|exact I]]].
        exists true. reflexivity.
    + intros k c _ Hin Hno. exists p0. destruct Hin as [H|[H|[]]]; injection H as <- <-.
      * exfalso. apply Hno. left. reflexivity.
      * exfalso. apply Hno. right. left. reflexivity.
  - intros k x Hx. inversion Hx; subst; clear Hx; [right; exact I|].
    match goal with H : In _ _ |- _ => destruct H as [H|[H|[]]]; injection H as <- <- end;
      match goal with H : In _ _ |- _ => destruct H as [H|[H|[]]]; try discriminate H; injection H as <- end;
      match goal with H : meets _ _ _ _ _ |- _ => inversion H; subst; clear H end; right; exact I.
  - apply sh_structure; [reflexivity| | | |exact I|].
    + cbn; intuition (subst; reflexivity).
    + cbn; intuition (subst; reflexivity).
    + apply perm_swap.
    + intros k x y [[= <- <-]|[[= <- <-]|[]]] [[= <-]|[[= <-]|[]]]; try discriminate; auto.
Qed.
@end *)

(** @prop C80 A text of JSON may be rewritten on its way: any text that is read as the same document but for the
    order of the entries of the objects that stand for structures, at any depth, gives exactly the value. *)
Lemma json_reordered_partial :
  forall E wrap load desc recon n m f v N k,
    mailable E desc recon n m f v -> (n + m * S n <= N)%nat -> keyed (Json E) k ->
    let reg := formats E wrap load in
    exists t d,
      field_serialize E desc recon N reg f v (Some k) = Ok (VStr t)
      /\ json_unserialize E t = Ok d
      /\ forall t' d', json_unserialize E t' = Ok d' -> shuffled E f d d' ->
           field_unserialize E desc recon N reg f t' k = Ok v.
Proof.
  intros E wrap load desc recon n m f v N k H HN Hk reg.
  destruct (mailable_ships E desc recon n m f v N H HN) as [w [w' [[Ho _] [Hj [Hi _]]]]].
  destruct (json_roundtrip E w w' Hj) as [t [Ht [Hc Hu]]]. exists t, w'.
  unfold field_serialize, field_unserialize, format_serialize, format_unserialize.
  rewrite (json_given E k Hk), Ho. cbn [bind]. unfold reg. rewrite (json_found E wrap load k Hk). cbn [fm_serialize fm_unserialize Json].
  rewrite Ht. split; [reflexivity|]. split; [exact Hu|]. intros t' d' Ht' Hs. rewrite Ht'. cbn [bind].
  match goal with |- process_gen _ _ _ _ _ ?b ?ph ?ser ?anc _ = _ =>
    destruct (order_irrelevant E desc recon N f b ph ser anc w' d' Hs) as [Hx|[e [e' [Hx _]]]]; rewrite Hi in Hx end;
    [symmetry; exact Hx|discriminate].
Qed.

(** @example
(* The object comes back with its entries the other way round and other blanks. *)
Example C80_reordered_example :
  let f := Fld p0 (KStructure (SPlain [($"a", Fld p_req (KInteger (Some 1%Z) None)); ($"c", Fld p0 KBoolean)]) true None) in
  let v := VDict false [(VStr $"a", VInt 3); (VStr $"c", VBool true)] in
  let w := VDict false [(VStr $"c", VBool true); (VStr $"a", VInt 3)] in
  let reg := formats env0 (fun _ t => [t]) (fun _ => Ok VNone) in
  mailable env0 nodesc norecon 0 0 f v
  /\ field_serialize env0 nodesc norecon 0 reg f v (Some (ByText $"json")) = Ok (VStr $"{""a"": 3, ""c"": true}")
  /\ json_unserialize env0 $"{""a"": 3, ""c"": true}" = Ok v
  /\ json_unserialize env0 $"{""c"":true, ""a"":3}" = Ok w
  /\ shuffled env0 f v w
  /\ field_unserialize env0 nodesc norecon 0 reg f $"{""c"":true, ""a"":3}" (ByText $"json") = Ok v.
Proof.
  cbv zeta. split; [|split; [vm_compute; reflexivity|split; [vm_compute; reflexivity|split; [vm_compute; reflexivity|split; [|vm_compute; reflexivity]]]]].
  - split; [|split; [|split; [|split; [|split; [|split]]]]].
    + split; [|discriminate]. constructor.
      * cbn. split; [|exact I]. repeat constructor; cbn; intuition discriminate.
      * intros g [<-|[<-|[]]]; constructor; [exact I|intros ? []|exact I|intros ? []].
    + split; [|discriminate]. constructor.
      * repeat split; discriminate.
      * intros g [<-|[<-|[]]]; constructor; [repeat split; discriminate|intros ? []|repeat split; discriminate|intros ? []].
    + split; [|discriminate]. constructor; [exact I|]. intros g [<-|[<-|[]]]; constructor; [exact I|intros ? []|exact I|intros ? []].
    + split; [|discriminate]. constructor.
      * intros name [<-|[<-|[]]]; (split; [intros c [<-|[]]; reflexivity|]); intros a h l b H; destruct a as [|x [|y a]]; discriminate.
      * intros g [<-|[<-|[]]]; constructor; [exact I|intros ? []|exact I|intros ? []].
    + right. split; [discriminate|]. eexists. split; [reflexivity|]. split; [|split].
      * apply sublist_take, sublist_take, sublist_nil.
      * intros k y [H|[H|[]]]; injection H as <- <-.
        -- eexists. split; [left; reflexivity|]. right. split; [discriminate|]. split; [|split; [left; reflexivity|intros _; split; [discriminate|exact I]]].
           exists 3%Z. split; [reflexivity|]. split; intros m [= <-]; lia.
        -- eexists. split; [right; left; reflexivity|]. right. split; [discriminate|]. split; [|split; [left; reflexivity|intros _; split; [discriminate|exact I]]].
           exists true. reflexivity.
      * intros k c _ Hin Hno. exists p0. destruct Hin as [H|[H|[]]]; injection H as <- <-.
        -- exfalso. apply Hno. left. reflexivity.
        -- exfalso. apply Hno. right. left. reflexivity.
    + intros k x Hx. inversion Hx; subst; clear Hx; [split; right; exact I|].
      match goal with H : In _ _ |- _ => destruct H as [H|[H|[]]]; injection H as <- <- end;
        match goal with H : In _ _ |- _ => destruct H as [H|[H|[]]]; try discriminate H; injection H as <- end;
        match goal with H : meets _ _ _ _ _ |- _ => inversion H; subst; clear H end; split; right; exact I.
    + intros valid x Hx. exfalso. inversion Hx; subst.
      match goal with H : In _ _ |- _ => destruct H as [H|[H|[]]]; injection H as <- <- end;
        match goal with H : In _ _ |- _ => destruct H as [H|[H|[]]]; try discriminate H; injection H as <- end;
        match goal with H : meets _ _ _ _ _ |- _ => solve [inversion H] end.
  - apply sh_structure; [reflexivity| | | |exact I|].
    + cbn; intuition (subst; reflexivity).
    + cbn; intuition (subst; reflexivity).
    + apply perm_swap.
    + intros k x y [[= <- <-]|[[= <- <-]|[]]] [[= <-]|[[= <-]|[]]]; try discriminate; auto.
Qed.
@end *)
