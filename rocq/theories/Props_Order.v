(** Property theorems proved in OrderProofs.v (generated by tools/mkprops.py). *)
From Verif Require Import Spec Demo OrderSpec OrderProofs.

(** C32.  The order in which a dict lists its entries does not matter to a structure: values that
    differ only in it, at any depth, are processed to the same value, or both refused with the same report, at
    any depth, but for the order of the entries of the dicts of errors, or both let the same other exception
    escape; natively or serialized, inbound or outbound, in part or in whole. *)
Theorem C32_order_irrelevant :
  forall E desc recon n f partial ph ser anc v w,
    shuffled E f v w ->
    same_outcome (process_gen E desc recon n f partial ph ser anc v)
                 (process_gen E desc recon n f partial ph ser anc w).
Proof. exact order_irrelevant. Qed.
Print Assumptions C32_order_irrelevant.

(* A text or a structure, in a sequence: the entries of the inner and the outer dict in another order.  The
   second pair, with an unknown key, is refused either way, but the reports list the keys in different orders. *)
Example C32_order_example :
  let inner := Fld p0 (KStructure (SPlain [($"x", Fld p0 (KInteger None None)); ($"y", Fld p0 KBoolean)]) true None) in
  let f := Fld p0 (KStructure (SPlain [($"a", Fld p0 (KInteger None None));
             ($"b", Fld p0 (KSequence (Fld p0 (KUnion [Fld p0 (KText None None None true); inner])) None None false))]) true None) in
  let v := VDict false [(VStr $"a", VInt 1); (VStr $"b", VList [VDict false [(VStr $"x", VInt 2); (VStr $"y", VBool true)]])] in
  let w := VDict false [(VStr $"b", VList [VDict false [(VStr $"y", VBool true); (VStr $"x", VInt 2)]]); (VStr $"a", VInt 1)] in
  shuffled env0 f v w /\ run0 f Inbound false v = Ok v /\ run0 f Inbound false w = Ok v
  /\ run0 inner Inbound false (VDict false [(VStr $"u", VNone); (VStr $"t", VNone)])
     <> run0 inner Inbound false (VDict false [(VStr $"t", VNone); (VStr $"u", VNone)]).
Proof.
  cbv zeta. split; [|split; [reflexivity|split; [reflexivity|vm_compute; discriminate]]].
  apply sh_structure; [reflexivity| | | |exact I|].
  - cbn; intuition (subst; reflexivity).
  - cbn; intuition (subst; reflexivity).
  - apply perm_swap.
  - intros k x y [[= <- <-]|[[= <- <-]|[]]] [[= <-]|[[= <-]|[]]]; try discriminate; auto.
    right. exists $"b". split; [reflexivity|]. split; [intros []|].
    split; [eexists; right; left; reflexivity|].
    intros g [[=]|[[= <-]|[]]].
    apply sh_sequence; [reflexivity|]. constructor; [|constructor].
    assert (Hin : shuffled env0
       (Fld p0 (KStructure (SPlain [($"x", Fld p0 (KInteger None None)); ($"y", Fld p0 KBoolean)]) true None))
       (VDict false [(VStr $"x", VInt 2); (VStr $"y", VBool true)])
       (VDict false [(VStr $"y", VBool true); (VStr $"x", VInt 2)])).
    { apply sh_structure; [reflexivity| | | |exact I|].
      - cbn; intuition (subst; reflexivity).
      - cbn; intuition (subst; reflexivity).
      - apply perm_swap.
      - intros k' x' y' [[= <- <-]|[[= <- <-]|[]]] [[= <-]|[[= <-]|[]]]; try discriminate; auto. }
    eapply sh_union; [right; left; reflexivity|exact Hin|].
    intros h [<-|[<-|[]]]; [right|left; exact Hin].
    split; [left; repeat eexists|]. repeat split.
Qed.

(** C32.  Completeness up to the order of the entries of dicts: a value that differs from a conforming one
    only in the order of the entries of dicts that stand for structures, at any depth, is accepted, and the
    conforming value is returned, with the entries in the order of the schema.  The exclusions are those of
    [process_complete_partial]. *)
Theorem C32_process_complete_reordered_partial :
  forall E desc recon n f anc v w,
    throughout E well_keyed f -> throughout E (tidy E) f ->
    conforms E n f v -> shuffled E f v w ->
    process_gen E desc recon n f false Inbound false anc w = Ok v.
Proof. exact process_complete_reordered_partial. Qed.
Print Assumptions C32_process_complete_reordered_partial.

(* The dict that lists the keys backwards is put in the order of the schema. *)
Example C32_reordered_example :
  let f := Fld p0 (KStructure (SPlain [($"a", Fld p_req (KInteger (Some 1%Z) None)); ($"c", Fld p0 KBoolean)]) true None) in
  let v := VDict false [(VStr $"a", VInt 3); (VStr $"c", VBool true)] in
  let w := VDict false [(VStr $"c", VBool true); (VStr $"a", VInt 3)] in
  throughout env0 well_keyed f /\ throughout env0 (tidy env0) f /\ conforms env0 0 f v /\ shuffled env0 f v w
  /\ run0 f Inbound false w = Ok v.
Proof.
  repeat split; try discriminate.
  - constructor.
    + cbn. split; [|exact I]. repeat constructor; cbn; intuition discriminate.
    + intros g [<-|[<-|[]]]; constructor; [exact I|intros ? []|exact I|intros ? []].
  - constructor.
    + repeat split; discriminate.
    + intros g [<-|[<-|[]]]; constructor; [repeat split; discriminate|intros ? []|repeat split; discriminate|intros ? []].
  - right. split; [discriminate|]. eexists. split; [reflexivity|]. split; [|split].
    + apply sublist_take, sublist_take, sublist_nil.
    + intros k y [H|[H|[]]]; injection H as <- <-.
      * eexists. split; [left; reflexivity|]. right. split; [discriminate|]. split; [|split; [left; reflexivity|intros _; split; [discriminate|exact I]]].
        exists 3%Z. split; [reflexivity|]. split; intros m [= <-]; lia.
      * eexists. split; [right; left; reflexivity|]. right. split; [discriminate|]. split; [|split; [left; reflexivity|intros _; split; [discriminate|exact I]]].
        exists true. reflexivity.
    + intros k c _ Hin Hno. exists p0. destruct Hin as [H|[H|[]]]; injection H as <- <-.
      * exfalso. apply Hno. left. reflexivity.
      * exfalso. apply Hno. right. left. reflexivity.
  - apply sh_structure; [reflexivity| | | |exact I|].
    + cbn; intuition (subst; reflexivity).
    + cbn; intuition (subst; reflexivity).
    + apply perm_swap.
    + intros k x y [[= <- <-]|[[= <- <-]|[]]] [[= <-]|[[= <-]|[]]]; try discriminate; auto.
Qed.
