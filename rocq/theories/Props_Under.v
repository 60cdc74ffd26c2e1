(** Property theorems proved in UnderProofs.v (generated by tools/mkprops.py). *)
From Verif Require Import Spec Demo UnderSpec UnderProofs.
Open Scope N_scope.

(** C75.  Underscores between digits do not count in the texts of integers, floats and decimals: the text is
    processed like the one without them. *)
Theorem C75_underscores_between_digits :
  forall E desc recon n p k partial anc s,
    match k with KInteger _ _ | KFloat _ _ | KDecimal _ _ => True | _ => False end ->
    digit_table E -> grouped E s ->
    process_gen E desc recon n (Fld p k) partial Inbound true anc (VStr s)
    = process_gen E desc recon n (Fld p k) partial Inbound true anc (VStr (ungrouped s)).
Proof. exact underscores_between_digits. Qed.
Print Assumptions C75_underscores_between_digits.

Example C75_underscores_example :
  digit_table env0 /\ grouped env0 $"1_0"
  /\ process_gen env0 nodesc norecon 3%nat (Fld p0 (KInteger None None)) false Inbound true [] (VStr $"-1_000_000") = Ok (VInt (-1000000))
  /\ process_gen env0 nodesc norecon 3%nat (Fld p0 (KDecimal None None)) false Inbound true [] (VStr $"1_0.2_5") = Ok (VDec (DFin false 1025 (-2))).
Proof.
  split; [discriminate|]. split; [|split; reflexivity].
  intros [|x [|y [|z a]]] b H; try discriminate H; [|destruct a; discriminate H].
  injection H as <- <-. exists [], 49, 48, []. split; [reflexivity|]. split; [reflexivity|].
  split; left; split; discriminate.
Qed.

(** C75.  A text with an underscore anywhere else is no integer and no float: it is refused as of an invalid
    type. *)
Theorem C75_underscores_elsewhere_refused :
  forall E desc recon n p k partial anc s,
    match k with KInteger _ _ | KFloat _ _ => True | _ => False end ->
    digit_table E -> ~ grouped E s ->
    process_gen E desc recon n (Fld p k) partial Inbound true anc (VStr s) = invalid_type (path_of p k anc).
Proof. exact underscores_elsewhere_refused. Qed.
Print Assumptions C75_underscores_elsewhere_refused.

(* Decimals are less strict. *)
Example C75_underscores_refused_example :
  ~ grouped env0 $"1__2"
  /\ process_gen env0 nodesc norecon 3%nat (Fld p0 (KInteger None None)) false Inbound true [] (VStr $"1__2")
     = invalid_type (path_of p0 (KInteger None None) [])
  /\ process_gen env0 nodesc norecon 3%nat (Fld p0 (KDecimal None None)) false Inbound true [] (VStr $"1__2") = Ok (VDec (DFin false 12 0)).
Proof.
  split; [|split; reflexivity]. intros H. destruct (H [49%N] [95%N; 50%N] eq_refl) as [a [c [d [b [_ [Hb [_ Hd]]]]]]].
  injection Hb as <- _. destruct Hd as [Hd|[Hd _]]; [destruct Hd as [_ Hd]|]; apply Hd; reflexivity.
Qed.
