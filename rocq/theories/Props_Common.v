(** Property theorems proved in CommonProofs.v (generated by tools/mkprops.py). *)
From Verif Require Import Spec Demo Common CommonSpec Env Msg MsgSpec CommonProofs.

(** C92.  The field Errors accepts null and pairs: first null or a list of entries, each null or a dict
    of texts under texts, then anything.  It gives the pair back with the blanks around the texts of the
    entries taken off; everything else it refuses.  It does so in all phases. *)
Theorem C92_errors_field_exact :
  forall E desc recon n partial ph ser anc v r,
    (forall a b, v = VList [a; b] \/ v = VTuple [a; b] -> dicts_proper (e_local E) a) ->
    (process_gen E desc recon n errors_field partial ph ser anc v = Ok r
     <-> (v = VNone /\ r = VNone)
         \/ exists a a' b, (v = VList [a; b] \/ v = VTuple [a; b]) /\ r = VTuple [a'; b] /\ errors_trimmed a a').
Proof. exact errors_field_exact. Qed.
Print Assumptions C92_errors_field_exact.

Example C92_example :
  let f v := process_gen env0 nodesc norecon 3 errors_field false Inbound true [] v in
  let entry s := VDict false [(VStr $"token", VStr $"invalid"); (VStr $"message", VStr s)] in
  f (VList [VList [entry $" a is bad "; VNone]; VInt 3]) = Ok (VTuple [VList [entry $"a is bad"; VNone]; VInt 3])
  /\ f (VTuple [VNone; VNone]) = Ok (VTuple [VNone; VNone])
  /\ rejected (f (VTuple [VList [VStr $"a"]; VNone]))
  /\ rejected (f (VTuple [VList [VDict false [(VStr $"token", VNone)]]; VNone]))
  /\ dicts_proper (e_local env0) (VList [entry $" a is bad "; VNone]).
Proof.
  cbv zeta. split; [vm_compute; reflexivity|]. split; [vm_compute; reflexivity|].
  split; [eexists; vm_compute; reflexivity|]. split; [eexists; vm_compute; reflexivity|].
  intros l e items [= <-] [<-|[<-|[]]] H; [injection H as <-|discriminate].
  split; [|split; [intros k []|exact I]]. intros k [<-|[]]. vm_compute. reflexivity.
Qed.

(** C92.  The serialization of an error whose entries are dicts of texts without blanks around them is
    accepted unchanged, inbound and outbound, whatever the structure of the error. *)
Theorem C92_serialized_errors_fit :
  forall E desc recon n partial ph ser anc e,
    Forall entry_tidy (er_errors e) ->
    (forall x items, In x (er_errors e) -> as_dict x = Some items -> distinct (e_local E) (map fst items)) ->
    process_gen E desc recon n errors_field partial ph ser anc (err_serialize e) = Ok (err_serialize e).
Proof. exact serialized_errors_fit. Qed.
Print Assumptions C92_serialized_errors_fit.

Example C92_fit_example :
  let entry := VDict false [(VStr $"token", VStr $"invalid"); (VStr $"title", VStr $"invalid value")] in
  let e := Err CValidation [entry] [$"(field)"]
               (Some (VDict false [(VStr $"a", VErr (Err CValidation [entry] [] None true))])) true in
  Forall entry_tidy (er_errors e)
  /\ err_serialize e = VTuple [VList [entry]; VDict false [(VStr $"a", VList [entry])]]
  /\ process_gen env0 nodesc norecon 3 errors_field false Outbound true [] (err_serialize e) = Ok (err_serialize e).
Proof.
  cbv zeta. split; [|split; vm_compute; reflexivity]. constructor; [|constructor].
  eexists. split; [reflexivity|]. constructor; [|constructor; [|constructor]].
  - eexists. eexists. split; [reflexivity|]. exists [], [].
    split; [reflexivity|]. do 2 (split; [constructor|]). split.
    + intros c r [= <- _]. reflexivity.
    + intros c r H. apply (f_equal (fun l => last l 0%N)) in H. rewrite last_last in H. cbn in H. subst c. reflexivity.
  - eexists. eexists. split; [reflexivity|]. exists [], [].
    split; [reflexivity|]. do 2 (split; [constructor|]). split.
    + intros c r [= <- _]. reflexivity.
    + intros c r H. apply (f_equal (fun l => last l 0%N)) in H. rewrite last_last in H. cbn in H. subst c. reflexivity.
Qed.

(** C92.  The entries the library builds are dicts of three texts, under three different keys, and only
    the message may have blanks around it. *)
Theorem C92_built_entries_fit :
  forall E repr fixed p (k : kind) tok given x,
    construct_error E repr fixed p k tok given = Ok x ->
    exists token title message,
      x = message_entry token title message
      /\ (forall items, as_dict x = Some items -> distinct (e_local E) (map fst items))
      /\ (entry_tidy x <-> stripped message message).
Proof. exact built_entries_fit. Qed.
Print Assumptions C92_built_entries_fit.

Example C92_built_example :
  exists x, construct_error env0 (fun _ => $"?") (fun _ => $"?") (p_named $"a") (KInteger None None : kind) $"invalid" [] = Ok x
    /\ x = message_entry $"invalid" $"invalid value" $"a must be an integer".
Proof. eexists. split; vm_compute; reflexivity. Qed.

(** C92.  As stated, that every error a field reports is accepted unchanged, the claim fails: the message
    about a field whose name begins with a blank loses the blank. *)
Theorem C92_errors_unchanged_refuted :
  exists E p (k : kind) x,
    (forall repr fixed, construct_error E repr fixed p k $"invalid" [] = Ok x)
    /\ forall desc recon n,
         accepted (process_gen E desc recon n errors_field false Outbound true []
                     (err_serialize (Err CInvalidType [x] [] None true)))
         /\ process_gen E desc recon n errors_field false Outbound true []
              (err_serialize (Err CInvalidType [x] [] None true))
            <> Ok (err_serialize (Err CInvalidType [x] [] None true)).
Proof. exact errors_unchanged_refuted. Qed.
Print Assumptions C92_errors_unchanged_refuted.
