(** * The order of the entries of maps (C21). *)
(* @imports Spec Demo OrderSpec *)
From Coq Require Import Permutation.
From Verif Require Import PyBaseFacts ProcessFacts Spec Demo ScalarProofs StructFacts MapProofs OrderSpec.

Lemma strings_distinct L (ks : list val) : NoDup ks -> (forall k, In k ks -> exists s, k = VStr s) -> distinct L ks.
Proof.
  intros H. induction H as [|k ks Hk _ IH]; intros Hs; cbn [distinct]; [exact I|].
  split; [|apply IH; intros k' Hk'; apply Hs; right; exact Hk'].
  intros k' Hk'. destruct (Hs k (or_introl eq_refl)) as [s ->]. destruct (Hs k' (or_intror Hk')) as [s' ->].
  destruct (veq L (VStr s) (VStr s')) eqn:He; [|reflexivity]. exfalso. apply Hk.
  change (str_eqb s s' = true) in He. apply str_eqb_eq in He. subst. exact Hk'.
Qed.

(** @prop C21 To a map with text keys the order of the entries of a dict matters only to the order of the
    entries of the result: what is accepted in one order is accepted in any other, and the entries are
    the same. *)
Lemma map_order_irrelevant :
  forall E desc recon n p vf req partial ph ser anc o o' items items' r,
    p_preprocessor p = None -> defined E vf ->
    Forall (fun k => hashable k = true) (match req with Some l => l | None => [] end) ->
    distinct (e_local E) (match req with Some l => l | None => [] end) ->
    NoDup (map fst items) -> Permutation items items' ->
    process_gen E desc recon n (Fld p (KMap vf None req)) partial ph ser anc (VDict o items) = Ok r ->
    exists l l',
      r = VDict false l /\ Permutation l l'
      /\ process_gen E desc recon n (Fld p (KMap vf None req)) partial ph ser anc (VDict o' items') = Ok (VDict false l').
Proof.
  intros E desc recon n p vf req partial ph ser anc o o' items items' r Hp Hd Hh Hdis Hnd Hperm Hr.
  destruct (map_accepts E desc recon n p vf None req partial ph ser anc o items Hp Hd Hh Hdis) as [Hacc Hout].
  destruct (map_accepts E desc recon n p vf None req partial ph ser anc o' items' Hp Hd Hh Hdis) as [_ Hout'].
  destruct (proj1 Hacc (ex_intro _ r Hr)) as [entries [He Hreq]].
  assert (Hkeys : forall its es,
     Forall2 (fun kv ke : val * val => fst ke = fst kv /\ exists s, fst kv = VStr s) its es ->
     NoDup (map fst its) -> distinct (e_local E) (map fst es)).
  { intros its es HF Hn. assert (Hm : map fst es = map fst its) by (clear -HF; induction HF as [|a b its es [H _] _ IH]; cbn; congruence).
    rewrite Hm. apply strings_distinct; [exact Hn|]. clear -HF. induction HF as [|a b its es [_ H] _ IH]; intros k []; [subst; exact H|].
    apply IH. assumption. }
  assert (Hde : distinct (e_local E) (map fst entries)).
  { apply (Hkeys items); [|exact Hnd]. eapply Forall2_impl; [|exact He]. intros a b [H _]. exact H. }
  assert (Hs : set_all (e_local E) entries [] = entries) by (apply set_all_new; exact Hde). rewrite Hs in Hreq.
  assert (Hr' := Hout entries He Hde Hreq).
  destruct (Permutation_Forall2 Hperm He) as [entries' [Hpe He']].
  exists entries, entries'. split; [congruence|]. split; [exact Hpe|].
  apply Hout'.
  - exact He'.
  - apply (Hkeys items').
    + eapply Forall2_impl; [|exact He']. intros a b [H _]. exact H.
    + eapply Permutation_NoDup; [|exact Hnd]. apply Permutation_map, Hperm.
  - intros l k Hl Hk. destruct (Hreq l k Hl Hk) as [ke [Hke Hv]]. exists ke. split; [|exact Hv].
    eapply Permutation_in; [exact Hpe|exact Hke].
Qed.

(** @example
(* Numbers under names, one of them required, in two orders. *)
Example C21_order_example :
  let f := Fld p0 (KMap (Fld p0 (KInteger None None)) None (Some [VStr $"b"])) in
  let items := [(VStr $"a", VStr $"1"); (VStr $"b", VStr $"2")] in
  let items' := [(VStr $"b", VStr $"2"); (VStr $"a", VStr $"1")] in
  NoDup (map fst items) /\ Permutation items items' /\ distinct (e_local env0) [VStr $"b"]
  /\ run0 f Inbound true (VDict false items) = Ok (VDict false [(VStr $"a", VInt 1); (VStr $"b", VInt 2)])
  /\ run0 f Inbound true (VDict false items') = Ok (VDict false [(VStr $"b", VInt 2); (VStr $"a", VInt 1)]).
Proof.
  split; [repeat constructor; cbn; intuition discriminate|]. split; [apply perm_swap|].
  split; [split; [intros ? []|exact I]|]. split; reflexivity.
Qed.
@end *)
