(** Property theorems proved in MapOrderProofs.v (generated by tools/mkprops.py). *)
From Verif Require Import Spec Demo OrderSpec MapOrderProofs.

(** C21.  To a map with text keys the order of the entries of a dict matters only to the order of the
    entries of the result: what is accepted in one order is accepted in any other, and the entries are
    the same. *)
Theorem C21_map_order_irrelevant :
  forall E desc recon n p vf req partial ph ser anc o o' items items' r,
    p_preprocessor p = None -> defined E vf ->
    Forall (fun k => hashable k = true) (match req with Some l => l | None => [] end) ->
    distinct (e_local E) (match req with Some l => l | None => [] end) ->
    NoDup (map fst items) -> Permutation items items' ->
    process_gen E desc recon n (Fld p (KMap vf None req)) partial ph ser anc (VDict o items) = Ok r ->
    exists l l',
      r = VDict false l /\ Permutation l l'
      /\ process_gen E desc recon n (Fld p (KMap vf None req)) partial ph ser anc (VDict o' items') = Ok (VDict false l').
Proof. exact map_order_irrelevant. Qed.
Print Assumptions C21_map_order_irrelevant.

(* Numbers under names, one of them required, in two orders. *)
Example C21_order_example :
  let f := Fld p0 (KMap (Fld p0 (KInteger None None)) None (Some [VStr $"b"])) in
  let items := [(VStr $"a", VStr $"1"); (VStr $"b", VStr $"2")] in
  let items' := [(VStr $"b", VStr $"2"); (VStr $"a", VStr $"1")] in
  NoDup (map fst items) /\ Permutation items items' /\ distinct (e_local env0) [VStr $"b"]
  /\ run0 f Inbound true (VDict false items) = Ok (VDict false [(VStr $"a", VInt 1); (VStr $"b", VInt 2)])
  /\ run0 f Inbound true (VDict false items') = Ok (VDict false [(VStr $"b", VInt 2); (VStr $"a", VInt 1)]).
Proof.
  split; [repeat constructor; cbn; intuition discriminate|]. split; [apply perm_swap|].
  split; [split; [intros ? []|exact I]|]. split; reflexivity.
Qed.
