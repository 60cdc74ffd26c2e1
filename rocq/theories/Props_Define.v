(** Property theorems proved in DefineProofs.v (generated by tools/mkprops.py). *)
From Verif Require Import DefineSpec DefineProofs.

(** C99.  Whatever fields are constructed and whatever placeholders are defined, in any order: each container
    holds, at each position, the field it was given there; for a placeholder that was defined before, the
    definition it had then; for any other placeholder its latest definition since, and the placeholder itself
    as long as there is none.  No other position is touched. *)
Theorem C99_define_exact :
  forall before l after,
    nth_error (h_parents (run (before ++ Construct l :: after))) (constructed before)
    = Some (map (due before after) l).
Proof. exact define_exact. Qed.
Print Assumptions C99_define_exact.

(* A tuple of a field, placeholder 0 and placeholder 1 before 0 is defined as the field 7; a union of the
   placeholder afterwards. *)
Example C99_example :
  h_parents (run [Construct [SField 3; SUndef 0; SUndef 1]; Define 0 7; Construct [SUndef 0; SField 4]])
  = [[SField 3; SField 7; SUndef 1]; [SField 7; SField 4]].
Proof. reflexivity. Qed.

(** C99.  A placeholder defined once is replaced by its definition in every container it was given to, whether
    that was constructed before or after. *)
Theorem C99_define_everywhere_partial :
  forall before l after u f j,
    In (Define u f) (before ++ after) -> (forall g, In (Define u g) (before ++ after) -> g = f) ->
    nth_error l j = Some (SUndef u) ->
    exists held, nth_error (h_parents (run (before ++ Construct l :: after))) (constructed before) = Some held
      /\ nth_error held j = Some (SField f).
Proof. exact define_everywhere_partial. Qed.
Print Assumptions C99_define_everywhere_partial.

(* Placeholder 0 stands twice in the first container and once in the second; 9 is defined otherwise. *)
Example C99_everywhere_example :
  let before := [Construct [SUndef 0; SUndef 0]; Define 0 7; Define 9 1] in
  let l := [SField 2; SUndef 0] in
  In (Define 0 7) (before ++ []) /\ (forall g, In (Define 0 g) (before ++ []) -> g = 7)
  /\ h_parents (run (before ++ [Construct l])) = [[SField 7; SField 7]; [SField 2; SField 7]].
Proof.
  split; [right; left; reflexivity|]. split; [|reflexivity].
  intros g [H|[H|[H|[]]]]; congruence.
Qed.

(** C99.  Refuted for placeholders defined again: the containers constructed before the first definition are
    given the second one, those constructed in between keep the first. *)
Theorem C99_define_again_refuted :
  exists ops u f g, f <> g
    /\ ops = [Construct [SUndef u]; Define u f; Construct [SUndef u]; Define u g]
    /\ h_parents (run ops) = [[SField g]; [SField f]].
Proof. exact define_again_refuted. Qed.
Print Assumptions C99_define_again_refuted.

(* Defined again before anything else is constructed, all is well. *)
Example C99_again_example :
  h_parents (run [Construct [SUndef 0]; Define 0 1; Define 0 2; Construct [SUndef 0]]) = [[SField 2]; [SField 2]].
Proof. reflexivity. Qed.
