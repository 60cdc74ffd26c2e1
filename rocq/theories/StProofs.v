(** * The structured text format (C58 to C60). *)
(* @imports Spec Demo StSpec *)
From Coq Require Import ZifyBool ZifyN ZifyNat FinFun Permutation.
From Verif Require Import PyBaseFacts Induct Spec Demo ProcessFacts NumFacts StructFacts StructProofs NumProofs ConfProofs StSpec.

(** ** C59: termination *)

Lemma openings_app a b : openings (a ++ b) = (openings a + openings b)%nat.
Proof. induction a as [|c a IH]; cbn [app openings]; [reflexivity|]. destruct (_ || _)%bool; rewrite IH; reflexivity. Qed.

Lemma scan_prefix close bad s m : scan close bad s = Some m -> exists rest, s = m ++ rest.
Proof.
  remember (length s) as n eqn:Hn. revert s m Hn. induction n as [n IH] using lt_wf_ind. intros [|c s] m Hn; cbn [scan]; [discriminate|].
  destruct (c =? close)%N; [intros [= <-]; exists s; reflexivity|].
  destruct (c =? 92)%N.
  - destruct s as [|d s]; [discriminate|]. destruct (_ || _); [|discriminate].
    destruct (scan close bad s) as [m'|] eqn:Hm; [|discriminate]. intros [= <-].
    cbn [length] in Hn. assert (Hlt : (length s < n)%nat) by lia.
    destruct (IH _ Hlt s m' eq_refl Hm) as [rest ->]. exists rest. reflexivity.
  - destruct (bad c); [discriminate|]. destruct (scan close bad s) as [m'|] eqn:Hm; [|discriminate]. intros [= <-].
    cbn [length] in Hn. assert (Hlt : (length s < n)%nat) by lia.
    destruct (IH _ Hlt s m' eq_refl Hm) as [rest ->]. exists rest. reflexivity.
Qed.

Lemma structure_match_other c s : c <> 123%N -> c <> 91%N -> structure_match (c :: s) = None.
Proof.
  intros H1 H2. unfold structure_match. destruct c as [|p]; [reflexivity|].
  repeat (destruct p as [p|p|]; try reflexivity; try (exfalso; congruence)).
Qed.

Lemma structure_match_some s m : structure_match s = Some m ->
  exists c m' rest, m = c :: m' /\ s = m ++ rest /\ (c = 123%N \/ c = 91%N).
Proof.
  destruct s as [|c s]; [discriminate|].
  destruct (N.eq_dec c 123) as [->|H1].
  - cbn [structure_match]. destruct (scan 125 bad_in_dict s) as [m'|] eqn:Hm; [|discriminate]. intros [= <-].
    destruct (scan_prefix _ _ _ _ Hm) as [rest ->]. exists 123%N, m', rest. auto.
  - destruct (N.eq_dec c 91) as [->|H2].
    + cbn [structure_match]. destruct (scan 93 bad_in_list s) as [m'|] eqn:Hm; [|discriminate]. intros [= <-].
      destruct (scan_prefix _ _ _ _ Hm) as [rest ->]. exists 91%N, m', rest. auto.
    + rewrite structure_match_other by assumption. discriminate.
Qed.

Lemma digits_text l : Forall (fun d => (d < 10)%N) l -> openings (render l) = O.
Proof.
  induction l as [|d l IH]; intros H; [reflexivity|]. inversion H; subst. cbn [render map openings].
  destruct (N.eqb_spec (48 + d) 123); [lia|]. destruct (N.eqb_spec (48 + d) 91); [lia|]. apply IH. assumption.
Qed.

Lemma N_text_openings n : openings (N_text n) = O.
Proof. apply digits_text. apply digits_dig. Qed.

Lemma token_openings n : openings (token n) = O.
Proof. unfold token. rewrite !openings_app, N_text_openings. reflexivity. Qed.

Lemma openings_skip k s : (openings (skipn (S k) s) <= openings (skipn k s))%nat.
Proof.
  revert s. induction k as [|k IH]; intros [|c s]; try (cbn; lia).
  - cbn [skipn openings]. destruct (_ || _)%bool; lia.
  - cbn [skipn] in *. apply IH.
Qed.

Lemma pass_openings E numbers s skip st st' s' n :
  pass E numbers skip st s = Ok (st', s', n) -> (openings s' + n <= openings (skipn skip s))%nat.
Proof.
  revert skip st st' s' n. induction s as [|c s IH]; intros skip st st' s' n H.
  - cbn in H. injection H as <- <- <-. destruct skip; cbn; lia.
  - cbn [pass] in H. destruct skip as [|k]; [|cbn [skipn]; eapply IH; exact H].
    cbn [skipn]. destruct (structure_match (c :: s)) as [m|] eqn:Hm.
    + apply bind_Ok in H. destruct H as [v [_ H]]. apply bind_Ok in H. destruct H as [[[st1 s1] n1] [H1 H]].
      cbn [fst snd] in H. injection H as <- <- <-. apply IH in H1.
      destruct (structure_match_some _ _ Hm) as [c' [m' [rest [-> [Hs Hc]]]]]. cbn [app] in Hs. injection Hs as <- ->.
      cbn [length] in H1. rewrite Nat.sub_succ, Nat.sub_0_r, skipn_app, skipn_all, Nat.sub_diag in H1. cbn [skipn app] in H1.
      change (openings (token (length st) ++ s1) + S n1 <= openings (c :: m' ++ rest))%nat.
      rewrite openings_app, token_openings. cbn [openings]. rewrite openings_app.
      assert (Ho : (c =? 123)%N || (c =? 91)%N = true) by (destruct Hc as [-> | ->]; reflexivity). rewrite Ho. lia.
    + apply bind_Ok in H. destruct H as [[[st1 s1] n1] [H1 H]].
      cbn [fst snd] in H. injection H as <- <- <-. apply IH in H1. cbn [skipn] in H1. cbn [openings]. destruct (_ || _)%bool; lia.
Qed.

Lemma passes_loop E numbers fuel st s :
  (openings s < fuel)%nat ->
  exists k r, loop E numbers k st s r /\ (k <= openings s)%nat /\ passes E numbers fuel st s = Some r.
Proof.
  revert st s. induction fuel as [|fuel IH]; intros st s Hlt; [lia|]. cbn [passes].
  destruct (pass E numbers 0 st s) as [[[st' s'] [|n]]|x] eqn:Hp.
  - eexists O, _. split; [eapply loop_last, Hp|]. split; [lia|reflexivity].
  - apply pass_openings in Hp as Hle. cbn [skipn] in Hle.
    destruct (IH st' s') as [k [r [H1 [H2 H3]]]]; [lia|]. exists (S k), r. split; [eapply loop_more; eassumption|].
    split; [lia|exact H3].
  - eexists O, _. split; [eapply loop_fails, Hp|]. split; [lia|reflexivity].
Qed.

Lemma loop_unique E numbers k st s r : loop E numbers k st s r ->
  forall k' r', loop E numbers k' st s r' -> k = k' /\ r = r'.
Proof.
  induction 1 as [st s st1 s1 H|st s x H|st s st1 s1 c k r H H' IH]; intros k2 r2 H2; inversion H2 as [? ? st2 s2 G|? ? x2 G|? ? st2 s2 c2 k3 r3 G G']; subst; rewrite H in G; try discriminate.
  - injection G as <- <-. auto.
  - injection G as <-. auto.
  - injection G as <- <- <-. destruct (IH _ _ G') as [-> ->]. auto.
Qed.

(** @prop C59 Parsing any text stops: for every text the unbounded loop ends after [k] passes that
    replace something, where [k] is at most the number of opening brackets of the text, and one more
    that finds nothing; the model's parser returns what that loop returns, and nothing else can
    happen. *)
Lemma structuredtext_terminates :
  forall E numbers s,
    exists k r, loop E numbers k [] s r /\ (k <= openings s)%nat /\ structured_value E numbers s = r
      /\ forall k' r', loop E numbers k' [] s r' -> k' = k /\ r' = r.
Proof.
  intros E numbers s. destruct (passes_loop E numbers (S (openings s)) [] s) as [k [r [H1 [H2 H3]]]]; [lia|].
  exists k, r. split; [exact H1|]. split; [exact H2|]. unfold structured_value. rewrite H3. split; [reflexivity|].
  intros k' r' H'. destruct (loop_unique _ _ _ _ _ _ H1 _ _ H') as [-> ->]. auto.
Qed.

(** @example
Example C59_example :
  openings $"[a,{b:[c,d]}]" = 3%nat
  /\ structured_value env0 false $"[a,{b:[c,d]}]"
     = Ok (VList [VStr $"a"; VDict false [(VStr $"b", VList [VStr $"c"; VStr $"d"])]])
  /\ structured_value env0 false $"[a,{b:[c,d}]" = py KeyError
  /\ structured_value env0 false $"{ab}" = py ValueError.
Proof. vm_compute. auto. Qed.
@end *)

(** ** C58: the round trip *)

(** Texts as trees: a leaf is a text without separators, a node a list or (with keys) a dict. *)
Inductive tree := Leaf (s : str) | Node (keys : option (list str)) (ts : list tree).

Definition children (t : tree) : list tree := match t with Leaf _ => [] | Node _ ts => ts end.

Section TreeInd.
Context (P : tree -> Prop) (Hstep : forall t, (forall u, In u (children t) -> P u) -> P t).
Fixpoint tree_ind' (t : tree) : P t.
Proof.
  apply Hstep. destruct t as [s|ks l]; cbn [children].
  - intros u [].
  - induction l as [|x l IH]; intros u Hu; [destruct Hu|]. destruct Hu as [<-|Hu]; [apply tree_ind'|exact (IH u Hu)].
Defined.
End TreeInd.

Definition opening (ks : option (list str)) : N := match ks with None => 91%N | Some _ => 123%N end.
Definition closing (ks : option (list str)) : N := match ks with None => 93%N | Some _ => 125%N end.
Definition prefixes (ks : option (list str)) (ts : list tree) : list str :=
  match ks with None => map (fun _ => []) ts | Some ks => map (fun k => k ++ [58%N]) ks end.
Definition zip (ps us : list str) : list str := map (fun pu => fst pu ++ snd pu) (combine ps us).

Fixpoint rend (t : tree) : str :=
  match t with
  | Leaf s => s
  | Node ks ts => opening ks :: join [44%N] (zip (prefixes ks ts) (map rend ts)) ++ [closing ks]
  end.

Fixpoint nodes (t : tree) : nat :=
  match t with
  | Leaf _ => O
  | Node _ ts => S (list_sum (map nodes ts))
  end.

Definition free (s : str) : Prop := forall c, In c s -> ~ separator c.

Fixpoint tree_ok (t : tree) : Prop :=
  match t with
  | Leaf s => free s
  | Node ks ts =>
      match ks with
      | None => ts <> [Leaf []]
      | Some ks => length ks = length ts /\ NoDup ks /\ forall k, In k ks -> plain_key k
      end /\ fold_right (fun u P => tree_ok u /\ P) True ts
  end.

Fixpoint den (E : env) (numbers : bool) (st : list (str * val)) (t : tree) : val :=
  match t with
  | Leaf s => token_value E numbers st s
  | Node None ts => VList (map (den E numbers st) ts)
  | Node (Some ks) ts => VDict false (combine (map VStr ks) (map (den E numbers st) ts))
  end.

Fixpoint settled (st : list (str * val)) (t : tree) : Prop :=
  match t with
  | Leaf s => In s (map fst st) \/ ~ token_like s
  | Node _ ts => fold_right (fun u P => settled st u /\ P) True ts
  end.

Definition numbered (st : list (str * val)) : Prop := map fst st = map token (seq 0 (length st)).

Lemma fold_all {A} (P : A -> Prop) l : fold_right (fun u Q => P u /\ Q) True l <-> forall u, In u l -> P u.
Proof.
  induction l as [|a l IH]; cbn [fold_right].
  - split; [intros _ u []|auto].
  - rewrite IH. split.
    + intros [H1 H2] u [<-|Hu]; auto.
    + intros H. split; [apply H; left; reflexivity|intros u Hu; apply H; right; exact Hu].
Qed.

Lemma numbered_app st v : numbered st -> numbered (st ++ [(token (length st), v)]).
Proof.
  unfold numbered. intros H. rewrite map_app, H, app_length. cbn [length map fst].
  rewrite Nat.add_1_r, seq_S, map_app. reflexivity.
Qed.

Lemma token_inj a b : token a = token b -> a = b.
Proof.
  unfold token. intros H. apply app_inv_head in H. apply app_inv_tail in H. apply N_text_inj in H. lia.
Qed.

Lemma numbered_fresh st : numbered st -> ~ In (token (length st)) (map fst st).
Proof.
  intros H. rewrite H. intros Hin. apply in_map_iff in Hin. destruct Hin as [n [Hn Hin]]. apply token_inj in Hn. subst n.
  apply in_seq in Hin. lia.
Qed.

Lemma token_token_like n : token_like (token n).
Proof. exists (N.of_nat n). reflexivity. Qed.

Lemma numbered_token_like st s : numbered st -> In s (map fst st) -> token_like s.
Proof. intros H. rewrite H. intros Hin. apply in_map_iff in Hin. destruct Hin as [n [<- _]]. apply token_token_like. Qed.

(** ** Passing over plain characters *)

Definition after (t : str) (c : nat) (r : res (list (str * val) * str * nat)) : res (list (str * val) * str * nat) :=
  do x <- r; Ok (fst (fst x), t ++ snd (fst x), (c + snd x)%nat).

Lemma after_after t1 c1 t2 c2 r : after t1 c1 (after t2 c2 r) = after (t1 ++ t2) (c1 + c2) r.
Proof.
  unfold after. destruct r as [[[st s] n]|x]; cbn [bind fst snd]; [|reflexivity]. rewrite <- app_assoc, Nat.add_assoc. reflexivity.
Qed.

Lemma after_nil r : after [] 0 r = r.
Proof. unfold after. destruct r as [[[st s] n]|x]; reflexivity. Qed.

Lemma pass_plain E numbers st a rest :
  (forall c, In c a -> c <> 123%N /\ c <> 91%N) ->
  pass E numbers 0 st (a ++ rest) = after a 0 (pass E numbers 0 st rest).
Proof.
  induction a as [|c a IH]; intros H; [symmetry; apply after_nil|]. cbn [app pass].
  destruct (H c (or_introl eq_refl)) as [H1 H2]. rewrite structure_match_other by assumption.
  rewrite IH; [|intros d Hd; apply H; right; exact Hd].
  unfold after. destruct (pass E numbers 0 st rest) as [[[st' s'] n]|x]; reflexivity.
Qed.

Lemma free_plain s : free s -> forall c, In c s -> c <> 123%N /\ c <> 91%N.
Proof. intros H c Hc. specialize (H c Hc). split; intros ->; apply H; cbn; tauto. Qed.
Lemma key_plain s : plain_key s -> free s.
Proof. intros H c Hc. apply (H c Hc). Qed.

Lemma pass_skip E numbers st a rest : pass E numbers (length a) st (a ++ rest) = pass E numbers 0 st rest.
Proof.
  induction a as [|c a IH]; [reflexivity|]. cbn [length app pass]. exact IH.
Qed.

Lemma scan_body close bad body rest :
  (forall c, In c body -> c <> close /\ c <> 92%N /\ bad c = false) ->
  scan close bad (body ++ close :: rest) = Some (body ++ [close]).
Proof.
  induction body as [|c body IH]; intros H; cbn [app scan].
  - rewrite N.eqb_refl. reflexivity.
  - destruct (H c (or_introl eq_refl)) as [H1 [H2 H3]].
    destruct (N.eqb_spec c close); [congruence|]. destruct (N.eqb_spec c 92); [congruence|]. rewrite H3.
    rewrite IH; [reflexivity|]. intros d Hd. apply H. right. exact Hd.
Qed.

Lemma scan_stuck close bad body c rest :
  (forall c, In c body -> c <> close /\ c <> 92%N /\ bad c = false) ->
  c <> close -> c <> 92%N -> bad c = true ->
  scan close bad (body ++ c :: rest) = None.
Proof.
  intros H H1 H2 H3. induction body as [|d body IH]; cbn [app scan].
  - destruct (N.eqb_spec c close); [congruence|]. destruct (N.eqb_spec c 92); [congruence|]. rewrite H3. reflexivity.
  - destruct (H d (or_introl eq_refl)) as [K1 [K2 K3]].
    destruct (N.eqb_spec d close); [congruence|]. destruct (N.eqb_spec d 92); [congruence|]. rewrite K3.
    rewrite IH; [reflexivity|]. intros e He. apply H. right. exact He.
Qed.

(** Characters the scanner passes over. *)
Definition calm (c : N) : Prop := ~ In c $"{}[]\".

Lemma free_calm s c : free s -> In c s -> calm c.
Proof. intros H Hc Hin. apply (H c Hc). cbn in *. tauto. Qed.

Lemma calm_scan close bad body :
  (close = 125%N /\ bad = bad_in_dict) \/ (close = 93%N /\ bad = bad_in_list) ->
  (forall c, In c body -> calm c) -> forall c, In c body -> c <> close /\ c <> 92%N /\ bad c = false.
Proof.
  intros Hm H c Hc. specialize (H c Hc). unfold calm in H. cbn in H.
  destruct Hm as [[-> ->]|[-> ->]]; unfold bad_in_dict, bad_in_list; repeat split; try (intros ->; tauto);
    repeat match goal with |- context [N.eqb c ?x] => destruct (N.eqb_spec c x); [subst; tauto|] end; reflexivity.
Qed.

Lemma structure_match_body ks body rest :
  (forall c, In c body -> calm c) ->
  structure_match (opening ks :: body ++ closing ks :: rest) = Some (opening ks :: body ++ [closing ks]).
Proof.
  intros H. destruct ks; cbn [opening closing structure_match]; rewrite scan_body; try reflexivity; apply calm_scan; auto.
Qed.

Lemma structure_match_stuck ks body o rest :
  (forall c, In c body -> calm c) -> o = 123%N \/ o = 91%N ->
  structure_match (opening ks :: body ++ o :: rest) = None.
Proof.
  intros H Ho. destruct ks; cbn [opening structure_match]; rewrite scan_stuck; try reflexivity;
    try (apply calm_scan; auto; fail); destruct Ho as [-> | ->]; try discriminate; reflexivity.
Qed.

Lemma zip_cons p ps u us : zip (p :: ps) (u :: us) = (p ++ u) :: zip ps us.
Proof. reflexivity. Qed.
Lemma zip_length ps us : length ps = length us -> length (zip ps us) = length us.
Proof. intros H. unfold zip. rewrite map_length, combine_length. lia. Qed.

Definition kids (ps : list str) (ts : list tree) : str := join [44%N] (zip ps (map rend ts)).

Lemma kids_cons p q ps t u ts : kids (p :: q :: ps) (t :: u :: ts) = (p ++ rend t) ++ 44%N :: kids (q :: ps) (u :: ts).
Proof. reflexivity. Qed.
Lemma kids_one p t : kids [p] [t] = p ++ rend t.
Proof. reflexivity. Qed.

Lemma rend_first t : tree_ok t -> (0 < nodes t)%nat -> exists o b, rend t = o :: b /\ (o = 123%N \/ o = 91%N).
Proof.
  destruct t as [s|ks ts]; cbn [nodes rend]; [lia|]. intros _ _. eexists _, _. split; [reflexivity|]. destruct ks; cbn; auto.
Qed.

Lemma nodes_leaf t : nodes t = O -> exists s, t = Leaf s.
Proof. destruct t; cbn [nodes]; [eauto|discriminate]. Qed.

Lemma kids_stuck ps ts :
  length ps = length ts -> (forall p, In p ps -> free p) -> (forall t, In t ts -> tree_ok t) ->
  (0 < list_sum (map nodes ts))%nat ->
  exists a o b, kids ps ts = a ++ o :: b /\ (forall c, In c a -> calm c) /\ (o = 123%N \/ o = 91%N).
Proof.
  revert ts. induction ps as [|p ps IH]; intros [|t ts] Hl Hp Ht Hn; try discriminate; [cbn in Hn; lia|].
  cbn [map list_sum fold_right] in Hn. change (fold_right Nat.add 0%nat (map nodes ts)) with (list_sum (map nodes ts)) in Hn.
  assert (Hpf : free p) by (apply Hp; left; reflexivity).
  assert (Htk : tree_ok t) by (apply Ht; left; reflexivity).
  destruct (nodes t) as [|k] eqn:Hk.
  - destruct (nodes_leaf t Hk) as [s ->]. cbn [tree_ok] in Htk.
    destruct ps as [|q ps], ts as [|u ts]; try discriminate; [cbn in Hn; lia|].
    destruct (IH (u :: ts)) as [a [o [b [H1 [H2 H3]]]]].
    + cbn [length] in *. lia.
    + intros r Hr. apply Hp. right. exact Hr.
    + intros r Hr. apply Ht. right. exact Hr.
    + exact Hn.
    + exists (p ++ s ++ 44%N :: a), o, b. rewrite kids_cons, H1. cbn [rend]. split; [|split; [|exact H3]].
      * rewrite <- !app_assoc. cbn [app]. reflexivity.
      * intros c Hc. apply in_app_iff in Hc. destruct Hc as [Hc|Hc]; [exact (free_calm p c Hpf Hc)|].
        apply in_app_iff in Hc. destruct Hc as [Hc|[<-|Hc]]; [exact (free_calm s c Htk Hc)| |exact (H2 c Hc)].
        unfold calm. cbn. intros Hx. decompose [or] Hx; try discriminate; assumption.
  - destruct (rend_first t Htk) as [o [b [Hr Ho]]]; [lia|].
    assert (Hx : exists tail, kids (p :: ps) (t :: ts) = (p ++ rend t) ++ tail).
    { destruct ps as [|q ps], ts as [|u ts]; try discriminate.
      - exists []. rewrite app_nil_r. reflexivity.
      - rewrite kids_cons. eexists. reflexivity. }
    destruct Hx as [tail Hx]. exists p, o, (b ++ tail). rewrite Hx, Hr, <- app_assoc. cbn [app]. split; [reflexivity|].
    split; [|exact Ho]. intros c Hc. exact (free_calm p c Hpf Hc).
Qed.

Lemma leaves ts : list_sum (map nodes ts) = O -> exists ss, ts = map Leaf ss.
Proof.
  induction ts as [|t ts IH]; intros H; [exists []; reflexivity|]. change (nodes t + list_sum (map nodes ts) = O)%nat in H.
  destruct (nodes_leaf t) as [s ->]; [lia|]. destruct IH as [ss ->]; [lia|]. exists (s :: ss). reflexivity.
Qed.

Lemma rend_leaves ss : map rend (map Leaf ss) = ss.
Proof. rewrite map_map. cbn. apply map_id. Qed.

(** ** Reading a node whose children are leaves *)

Lemma zip_nil_prefixes (ts : list tree) ss : length ts = length ss -> zip (map (fun _ => []) ts) ss = ss.
Proof.
  revert ss. induction ts as [|t ts IH]; intros [|s ss] H; try discriminate; [reflexivity|].
  cbn [map]. rewrite zip_cons, IH by (cbn in H; lia). reflexivity.
Qed.

Lemma join_In sep parts c : In c (join sep parts) -> In c sep \/ exists p, In p parts /\ In c p.
Proof.
  induction parts as [|p parts IH]; intros H; [destruct H|]. destruct parts as [|q parts].
  - right. exists p. split; [left; reflexivity|exact H].
  - rewrite join_cons in H by discriminate. apply in_app_iff in H. destruct H as [H|H].
    + right. exists p. split; [left; reflexivity|exact H].
    + apply in_app_iff in H. destruct H as [H|H]; [left; exact H|].
      destruct (IH H) as [H'|[r [Hr H']]]; [left; exact H'|]. right. exists r. split; [right; exact Hr|exact H'].
Qed.

Lemma join_nil parts : join [44%N] parts = [] -> parts = [] \/ parts = [[]].
Proof.
  destruct parts as [|p [|q parts]]; intros H; [left; reflexivity| |].
  - cbn in H. subst. right. reflexivity.
  - rewrite join_cons in H by discriminate. destruct p; discriminate.
Qed.

Lemma split_pair_key k v : plain_key k -> split_pair (k ++ 58%N :: v) = Some (k, v).
Proof.
  induction k as [|c k IH]; intros H; cbn [app split_pair].
  - reflexivity.
  - destruct (H c (or_introl eq_refl)) as [_ Hc]. destruct (N.eqb_spec c 58); [congruence|]. rewrite IH; [reflexivity|].
    intros d Hd. apply H. right. exact Hd.
Qed.

Lemma read_pairs_zip E numbers st ks ss :
  length ks = length ss -> (forall k, In k ks -> plain_key k) ->
  read_pairs E numbers st (zip (map (fun k => k ++ [58%N]) ks) ss)
  = Ok (combine (map VStr ks) (map (token_value E numbers st) ss)).
Proof.
  revert ss. induction ks as [|k ks IH]; intros [|s ss] Hl Hk; try discriminate; [reflexivity|].
  cbn [map]. rewrite zip_cons. cbn [read_pairs]. rewrite <- app_assoc. cbn [app].
  rewrite split_pair_key by (apply Hk; left; reflexivity).
  rewrite IH; [reflexivity|cbn in Hl; lia|intros q Hq; apply Hk; right; exact Hq].
Qed.

Lemma dget_str_None L k (l : list (val * val)) : (forall x, In x (map fst l) -> exists s, x = VStr s) ->
  ~ In (VStr k) (map fst l) -> dget L (VStr k) l = None.
Proof.
  induction l as [|[x v] l IH]; intros Hs Hn; [reflexivity|]. cbn [map fst] in *. cbn [dget].
  destruct (Hs x (or_introl eq_refl)) as [s ->].
  assert (Hne : s <> k) by (intros ->; apply Hn; left; reflexivity).
  cbn [veq]. apply str_eqb_neq in Hne. rewrite Hne. apply IH.
  - intros y Hy. apply Hs. right. exact Hy.
  - intros Hin. apply Hn. right. exact Hin.
Qed.

Lemma dset_all L ks (vs : list val) acc :
  length ks = length vs -> NoDup ks -> (forall x, In x (map fst acc) -> exists s, x = VStr s /\ ~ In s ks) ->
  fold_left (fun d kv => dset L (fst kv) (snd kv) d) (combine (map VStr ks) vs) acc = acc ++ combine (map VStr ks) vs.
Proof.
  revert vs acc. induction ks as [|k ks IH]; intros [|v vs] acc Hl Hd Ha; try discriminate; [cbn; symmetry; apply app_nil_r|].
  inversion Hd as [|? ? Hn Hd']; subst. cbn [map combine fold_left fst snd].
  rewrite dset_new.
  - rewrite IH; [rewrite <- app_assoc; reflexivity|cbn in Hl; lia|exact Hd'|].
    intros x Hx. rewrite map_app in Hx. apply in_app_iff in Hx. destruct Hx as [Hx|[<-|[]]].
    + destruct (Ha x Hx) as [s [-> Hs]]. exists s. split; [reflexivity|]. intros Hin. apply Hs. right. exact Hin.
    + exists k. split; [reflexivity|exact Hn].
  - apply dget_str_None.
    + intros x Hx. destruct (Ha x Hx) as [s [-> _]]. eauto.
    + intros Hin. destruct (Ha _ Hin) as [s [[= <-] Hs]]. apply Hs. left. reflexivity.
Qed.

Lemma removelast_last {A} (l : list A) x : removelast (l ++ [x]) = l.
Proof. apply removelast_last. Qed.

Lemma prefix_free ks ts : tree_ok (Node ks ts) -> forall p, In p (prefixes ks ts) -> free p.
Proof.
  intros H p Hp. destruct ks as [ks|]; cbn [prefixes] in Hp; apply in_map_iff in Hp.
  - destruct Hp as [k [<- Hk]]. cbn [tree_ok] in H. destruct H as [[_ [_ H]] _]. specialize (H k Hk).
    intros c Hc. apply in_app_iff in Hc. destruct Hc as [Hc|[<-|[]]]; [apply (H c Hc)|]. unfold separator. cbn.
    intros Hx. decompose [or] Hx; try discriminate; assumption.
  - destruct Hp as [k [<- _]]. intros c [].
Qed.

Lemma prefix_length ks ts : tree_ok (Node ks ts) -> length (prefixes ks ts) = length ts.
Proof. destruct ks as [ks|]; cbn [prefixes tree_ok]; rewrite map_length; [intros [[H _] _]; exact H|reflexivity]. Qed.

Lemma free_app a b : free a -> free b -> free (a ++ b).
Proof. intros Ha Hb c Hc. apply in_app_iff in Hc. destruct Hc; auto. Qed.

Lemma zip_free ps us : (forall p, In p ps -> free p) -> (forall u, In u us -> free u) -> forall x, In x (zip ps us) -> free x.
Proof.
  intros Hp Hu x Hx. apply in_map_iff in Hx. destruct Hx as [[p u] [<- Hin]]. cbn [fst snd].
  apply free_app; [apply Hp; eapply in_combine_l; exact Hin|apply Hu; eapply in_combine_r; exact Hin].
Qed.

Lemma read_node E numbers st ks ss :
  tree_ok (Node ks (map Leaf ss)) ->
  let body := kids (prefixes ks (map Leaf ss)) (map Leaf ss) in
  read_structure E numbers st (opening ks :: body ++ [closing ks]) = Ok (den E numbers st (Node ks (map Leaf ss))).
Proof.
  intros Hok body. assert (Hk := Hok). cbn [tree_ok] in Hk. destruct Hk as [Hk Hts]. rewrite (fold_all tree_ok) in Hts.
  assert (Hss : forall u, In u ss -> free u) by (intros u Hu; apply (Hts (Leaf u)); apply in_map, Hu).
  assert (Hzf := zip_free _ ss (prefix_free ks _ Hok) Hss).
  assert (Hb : body = join [44%N] (zip (prefixes ks (map Leaf ss)) ss)) by (unfold body, kids; rewrite rend_leaves; reflexivity).
  assert (Hcomma : Forall (fun p => ~ In 44%N p) (zip (prefixes ks (map Leaf ss)) ss)).
  { rewrite Forall_forall. intros p Hp Hin. apply (Hzf p Hp 44%N Hin). cbn. tauto. }
  assert (Hlen : length (prefixes ks (map Leaf ss)) = length ss) by (rewrite (prefix_length _ _ Hok), map_length; reflexivity).
  unfold read_structure. cbn [tl]. rewrite removelast_last.
  assert (Hsplit : ss <> [] -> split_on 44 body = zip (prefixes ks (map Leaf ss)) ss).
  { intros Hne. rewrite Hb. apply split_join; [|exact Hcomma]. intros H0. apply (f_equal (@length str)) in H0. rewrite zip_length in H0 by exact Hlen.
    destruct ss; [congruence|discriminate]. }
  clearbody body. assert (Hes : ss = [] \/ ss <> []) by (destruct ss; [left; reflexivity|right; discriminate]).
  destruct Hes as [-> |Hne].
  { destruct ks as [ks|]; cbn [prefixes map] in *; [destruct ks; [|discriminate]|]; rewrite Hb; reflexivity. }
  assert (Hbody : body <> []).
  { rewrite Hb. intros H0. destruct (join_nil _ H0) as [H1|H1].
    - apply (f_equal (@length str)) in H1. rewrite zip_length in H1 by exact Hlen. destruct ss; [congruence|discriminate].
    - destruct ks as [ks|]; cbn [prefixes] in *.
      + destruct ks as [|k ks], ss as [|s1 ss]; try discriminate; try congruence. cbn [map] in H1. rewrite zip_cons in H1. injection H1 as H1 _.
        destruct k; discriminate.
      + rewrite zip_nil_prefixes in H1 by (rewrite map_length; reflexivity). subst ss. apply Hk. reflexivity. }
  destruct ks as [ks|]; cbn [opening]; destruct body as [|c0 body0] eqn:Hbd; try congruence; rewrite <- Hbd, (Hsplit Hne) in *; cbn [prefixes den].
  - destruct Hk as [Hl [Hnd Hpk]]. rewrite map_length in Hl. rewrite read_pairs_zip by assumption. cbn [bind].
    rewrite dset_all; [|rewrite map_length; exact Hl|exact Hnd|intros x []]. cbn [app]. rewrite map_map. cbn [den]. reflexivity.
  - rewrite zip_nil_prefixes by (rewrite map_length; reflexivity). rewrite map_map. cbn [den]. reflexivity.
Qed.

(** ** One pass over a tree *)

Lemma aget_app_in {A} k (l m : list (str * A)) : In k (map fst l) -> aget k (l ++ m) = aget k l.
Proof.
  induction l as [|[k' a] l IH]; [intros []|]. cbn [map fst app aget]. destruct (str_eqb_spec k k') as [->|Hn]; [reflexivity|].
  intros [H|H]; [congruence|exact (IH H)].
Qed.

Lemma settled_more E numbers st e t : numbered (st ++ e) -> settled st t ->
  settled (st ++ e) t /\ den E numbers (st ++ e) t = den E numbers st t.
Proof.
  intros Hn. induction t as [t IH] using tree_ind'. destruct t as [s|ks ts]; cbn [settled den children] in *.
  - intros [H|H].
    + split; [left; rewrite map_app; apply in_app_iff; left; exact H|]. unfold token_value. rewrite aget_app_in by exact H. reflexivity.
    + split; [right; exact H|]. unfold token_value.
      assert (H1 : aget s (st ++ e) = None) by (apply aget_None; intros Hin; apply H; exact (numbered_token_like _ _ Hn Hin)).
      assert (H2 : aget s st = None).
      { apply aget_None. apply aget_None in H1. intros Hin. apply H1. rewrite map_app. apply in_app_iff. left. exact Hin. }
      rewrite H1, H2. reflexivity.
  - intros H. rewrite (fold_all (settled st)) in H. rewrite (fold_all (settled (st ++ e))). split.
    + intros u Hu. apply IH; auto.
    + assert (Hm : map (den E numbers (st ++ e)) ts = map (den E numbers st) ts).
      { apply map_ext_in. intros u Hu. apply IH; auto. }
      destruct ks; rewrite Hm; reflexivity.
Qed.

Definition shape (t t' : tree) : Prop :=
  (nodes t = O -> t' = t) /\ ((0 < nodes t)%nat -> forall s, t' = Leaf s -> s <> []).

Definition walks (E : env) (numbers : bool) (t : tree) : Prop := forall st,
  numbered st -> tree_ok t -> settled st t ->
  exists e t' c,
    (forall rest, pass E numbers 0 st (rend t ++ rest) = after (rend t') c (pass E numbers 0 (st ++ e) rest))
    /\ numbered (st ++ e) /\ tree_ok t' /\ settled (st ++ e) t'
    /\ den E numbers (st ++ e) t' = den E numbers st t
    /\ (c + nodes t' = nodes t)%nat /\ ((0 < nodes t)%nat -> (0 < c)%nat)
    /\ (nodes t = O -> t' = t)
    /\ ((0 < nodes t)%nat -> forall s, t' = Leaf s -> In s (map fst (st ++ e))).

Lemma token_nonempty s : token_like s -> s <> [].
Proof. intros [n ->]. discriminate. Qed.

Lemma free_opening s : free s -> forall c, In c s -> c <> 123%N /\ c <> 91%N.
Proof. exact (free_plain s). Qed.

Lemma kids_walk E numbers ps ts :
  length ps = length ts -> (forall p, In p ps -> free p) -> (forall t, In t ts -> tree_ok t) ->
  (forall t, In t ts -> walks E numbers t) ->
  forall st, numbered st -> (forall t, In t ts -> settled st t) ->
  exists e ts' c,
    (forall rest, pass E numbers 0 st (kids ps ts ++ rest) = after (kids ps ts') c (pass E numbers 0 (st ++ e) rest))
    /\ numbered (st ++ e) /\ length ts' = length ts /\ (forall t, In t ts' -> tree_ok t)
    /\ (forall t, In t ts' -> settled (st ++ e) t)
    /\ map (den E numbers (st ++ e)) ts' = map (den E numbers st) ts
    /\ (c + list_sum (map nodes ts') = list_sum (map nodes ts))%nat
    /\ ((0 < list_sum (map nodes ts))%nat -> (0 < c)%nat)
    /\ Forall2 shape ts ts'.
Proof.
  revert ts. induction ps as [|p ps IH]; intros [|t ts] Hl Hp Hok Hw st Hn Hs; try discriminate.
  - exists [], [], O. rewrite app_nil_r. cbn [kids zip map combine join app]. repeat split; try lia; try (intros u []).
    + intros rest. symmetry. apply after_nil.
    + exact Hn.
    + intros H. cbn in H. lia.
    + constructor.
  - assert (Hpf : free p) by (apply Hp; left; reflexivity).
    destruct (Hw t (or_introl eq_refl) st Hn (Hok t (or_introl eq_refl)) (Hs t (or_introl eq_refl)))
      as [e [t' [c [H1 [H2 [H3 [H4 [H5 [H6 [H7 [H8 H9]]]]]]]]]]].
    assert (Hl' : length ps = length ts) by (cbn in Hl; lia).
    destruct (IH ts Hl' (fun q Hq => Hp q (or_intror Hq)) (fun q Hq => Hok q (or_intror Hq)) (fun q Hq => Hw q (or_intror Hq)) (st ++ e) H2)
      as [e2 [ts' [c2 [G1 [G2 [G3 [G4 [G5 [G6 [G7 [G8 G9]]]]]]]]]]].
    { intros u Hu. apply (settled_more E numbers); [exact H2|]. apply Hs. right. exact Hu. }
    exists (e ++ e2), (t' :: ts'), (c + c2)%nat. rewrite app_assoc.
    assert (Hst : settled ((st ++ e) ++ e2) t' /\ den E numbers ((st ++ e) ++ e2) t' = den E numbers (st ++ e) t')
      by (apply settled_more; assumption).
    assert (Hden : map (den E numbers (st ++ e)) ts = map (den E numbers st) ts).
    { apply map_ext_in. intros u Hu. apply settled_more; [exact H2|]. apply Hs. right. exact Hu. }
    split; [|split; [exact G2|split; [cbn [length]; lia|split; [|split; [|split; [|split; [|split]]]]]]].
    + intros rest. assert (Hplain := free_opening p Hpf). destruct ps as [|q ps], ts as [|u ts]; try discriminate.
      * destruct ts' as [|u' ts']; [|discriminate]. rewrite !kids_one, <- app_assoc, (pass_plain _ _ _ p) by exact Hplain.
        rewrite H1. cbn [kids zip map combine join app] in G1. specialize (G1 rest). cbn [app] in G1. rewrite G1, !after_after. cbn [app Nat.add]. rewrite app_nil_r.
        reflexivity.
      * destruct ts' as [|u' ts']; [discriminate|]. rewrite !kids_cons, <- !app_assoc, (pass_plain _ _ _ p) by exact Hplain.
        rewrite H1. change ((44%N :: kids (q :: ps) (u :: ts)) ++ rest) with ([44%N] ++ kids (q :: ps) (u :: ts) ++ rest).
        rewrite (pass_plain _ _ _ [44%N]); [|intros x [<-|[]]; split; discriminate].
        rewrite G1, !after_after. cbn [Nat.add]. rewrite <- ?app_assoc. rewrite <- ?Nat.add_assoc. reflexivity.
    + intros u [<-|Hu]; auto.
    + intros u [<-|Hu]; [apply Hst|auto].
    + cbn [map]. rewrite (proj2 Hst), H5, G6, Hden. reflexivity.
    + change (c + c2 + (nodes t' + list_sum (map nodes ts')) = nodes t + list_sum (map nodes ts))%nat. lia.
    + change (0 < nodes t + list_sum (map nodes ts) -> 0 < c + c2)%nat. lia.
    + constructor; [|exact G9]. split; [exact H8|]. intros Hpos s ->. apply token_nonempty. eapply numbered_token_like; [exact H2|]. apply H9; auto.
Qed.

Lemma tree_walks E numbers t : walks E numbers t.
Proof.
  induction t as [t IH] using tree_ind'. intros st Hn Hok Hs. destruct t as [s|ks ts].
  - exists [], (Leaf s), O. rewrite app_nil_r. cbn [rend nodes]. repeat split; auto; try lia.
    intros rest. apply pass_plain. apply free_opening. exact Hok.
  - assert (Hok' := Hok). assert (Hs' := Hs). cbn [tree_ok settled] in Hok', Hs'. destruct Hok' as [Hk Hts].
    rewrite (fold_all tree_ok) in Hts. rewrite (fold_all (settled st)) in Hs'.
    assert (Hpf := prefix_free ks ts Hok). assert (Hpl := prefix_length ks ts Hok).
    change (rend (Node ks ts)) with (opening ks :: kids (prefixes ks ts) ts ++ [closing ks]).
    destruct (list_sum (map nodes ts)) as [|k] eqn:Hsum.
    + destruct (leaves ts Hsum) as [ss ->].
      assert (Hcalm : forall c, In c (kids (prefixes ks (map Leaf ss)) (map Leaf ss)) -> calm c).
      { intros c Hc. unfold kids in Hc. rewrite rend_leaves in Hc. destruct (join_In _ _ _ Hc) as [[<-|[]]|[q [Hq Hc']]].
        - unfold calm. cbn. intros Hx. decompose [or] Hx; try discriminate; assumption.
        - refine (free_calm q c _ Hc'). refine (zip_free _ _ Hpf _ q Hq). intros u Hu. apply (Hts (Leaf u)). apply in_map. exact Hu. }
      exists [(token (length st), den E numbers st (Node ks (map Leaf ss)))], (Leaf (token (length st))), 1%nat.
      split; [|split; [exact (numbered_app _ _ Hn)|]].
      * intros rest. cbn [app]. rewrite <- app_assoc. cbn [app pass].
        rewrite structure_match_body by exact Hcalm. rewrite read_node by exact Hok. cbn [bind].
        replace (length (opening ks :: kids (prefixes ks (map Leaf ss)) (map Leaf ss) ++ [closing ks]) - 1)%nat
          with (length (kids (prefixes ks (map Leaf ss)) (map Leaf ss) ++ [closing ks])) by (cbn [length]; lia).
        change (kids (prefixes ks (map Leaf ss)) (map Leaf ss) ++ closing ks :: rest)
          with (kids (prefixes ks (map Leaf ss)) (map Leaf ss) ++ [closing ks] ++ rest).
        rewrite app_assoc, pass_skip. unfold after. cbn [rend]. reflexivity.
      * split; [|split; [left; rewrite map_app; apply in_app_iff; right; left; reflexivity|]].
        { cbn [tree_ok]. intros c Hc. unfold token in Hc. intros Hsep. unfold separator in Hsep. cbn in Hsep.
          apply in_app_iff in Hc. destruct Hc as [Hc|Hc]; [cbn in Hc; intuition (subst; discriminate)|].
          apply in_app_iff in Hc. destruct Hc as [Hc|Hc]; [|cbn in Hc; intuition (subst; discriminate)].
          unfold N_text, render in Hc. apply in_map_iff in Hc. destruct Hc as [d [<- Hd]].
          assert (Hlt := digits_dig (N.of_nat (length st))). rewrite Forall_forall in Hlt. specialize (Hlt d Hd). unfold dig in Hlt. lia. }
        split; [|split; [|split; [|split]]].
        { cbn [den]. unfold token_value. rewrite (aget_NoDup_In (token (length st)) (den E numbers st (Node ks (map Leaf ss)))); [reflexivity| |].
          - rewrite map_app. cbn [map fst]. rewrite <- (app_nil_r (map fst st ++ [token (length st)])).
            assert (Hnd := numbered_app st VNone Hn). unfold numbered in Hnd. rewrite map_app in Hnd. cbn [map fst] in Hnd. rewrite app_nil_r, Hnd.
            apply Injective_map_NoDup; [intros a b; apply token_inj|apply seq_NoDup].
          - apply in_app_iff. right. left. reflexivity. }
        { cbn [nodes]. rewrite Hsum. reflexivity. }
        { lia. }
        { cbn [nodes]. discriminate. }
        { intros _ s [= <-]. rewrite map_app. apply in_app_iff. right. left. reflexivity. }
    + destruct (kids_walk E numbers (prefixes ks ts) ts Hpl Hpf Hts (fun u Hu => IH u Hu) st Hn Hs')
        as [e [ts' [c [G1 [G2 [G3 [G4 [G5 [G6 [G7 [G8 G9]]]]]]]]]]].
      destruct (kids_stuck (prefixes ks ts) ts Hpl Hpf Hts) as [a [o [b [K1 [K2 K3]]]]]; [lia|].
      assert (Hpre : prefixes ks ts' = prefixes ks ts).
      { destruct ks as [ks|]; [reflexivity|]. cbn [prefixes]. clear - G3. revert ts G3. induction ts' as [|u ts' IH]; intros [|v ts] H; try discriminate; [reflexivity|].
        cbn [map]. rewrite (IH ts) by (cbn in H; lia). reflexivity. }
      exists e, (Node ks ts'), c. split; [|split; [exact G2|split; [|split; [|split; [|split; [|split; [|split]]]]]]].
      * intros rest. cbn [app]. rewrite <- app_assoc. cbn [app pass].
        assert (Hm : structure_match (opening ks :: kids (prefixes ks ts) ts ++ closing ks :: rest) = None).
        { rewrite K1, <- app_assoc. cbn [app]. apply structure_match_stuck; assumption. }
        rewrite Hm, G1. change (closing ks :: rest) with ([closing ks] ++ rest).
        rewrite (pass_plain _ _ _ [closing ks]); [|intros x [<-|[]]; destruct ks; split; discriminate].
        rewrite after_after.
        change (rend (Node ks ts')) with (opening ks :: kids (prefixes ks ts') ts' ++ [closing ks]). rewrite Hpre.
        unfold after. destruct (pass E numbers 0 (st ++ e) rest) as [[[s1 s2] s3]|x]; cbn [bind fst snd]; [|reflexivity].
        rewrite Nat.add_0_r. reflexivity.
      * cbn [tree_ok]. rewrite (fold_all tree_ok). split; [|exact G4]. destruct ks as [ks|]; [rewrite G3; exact Hk|].
        intros ->. inversion G9 as [|t0 ? l0 ? Hsh Hrest]; subst. inversion Hrest; subst. destruct (nodes t0) eqn:Ht0.
        { apply Hk. rewrite (proj1 Hsh Ht0). reflexivity. }
        { apply (proj2 Hsh ltac:(lia) [] eq_refl). reflexivity. }
      * cbn [settled]. rewrite (fold_all (settled (st ++ e))). exact G5.
      * cbn [den]. rewrite G6. reflexivity.
      * cbn [nodes]. lia.
      * lia.
      * cbn [nodes]. discriminate.
      * intros _ s [=].
Qed.

(** ** All passes over a tree *)

Lemma passes_tree E numbers fuel st t :
  numbered st -> tree_ok t -> settled st t -> (nodes t < fuel)%nat ->
  (nodes t = O -> exists s, t = Leaf s /\ In s (map fst st)) ->
  passes E numbers fuel st (rend t) = Some (Ok (den E numbers st t)).
Proof.
  revert st t. induction fuel as [|fuel IH]; intros st t Hn Hok Hs Hlt H0; [lia|]. cbn [passes].
  destruct (tree_walks E numbers t st Hn Hok Hs) as [e [t' [c [H1 [H2 [H3 [H4 [H5 [H6 [H7 [H8 H9]]]]]]]]]]].
  specialize (H1 []). rewrite app_nil_r in H1. rewrite H1. unfold after. cbn [pass bind fst snd]. rewrite app_nil_r, Nat.add_0_r.
  destruct (nodes t) as [|k] eqn:Hk.
  - assert (c = O) by lia. subst c. rewrite (H8 eq_refl) in *. destruct (H0 eq_refl) as [s [-> Hin]].
    cbn [rend den] in *. unfold token_value in *.
    assert (Hin' : In s (map fst (st ++ e))) by (rewrite map_app; apply in_app_iff; left; exact Hin).
    apply aget_Some_in in Hin'. destruct Hin' as [v Hv]. rewrite Hv in *. rewrite H5. reflexivity.
  - assert (Hc := H7 ltac:(lia)). destruct c as [|c]; [lia|].
    rewrite IH; [rewrite H5; reflexivity|exact H2|exact H3|exact H4|lia|].
    intros Hz. destruct (nodes_leaf t' Hz) as [s ->]. exists s. split; [reflexivity|]. apply H9; [lia|reflexivity].
Qed.

Lemma free_openings s : free s -> openings s = O.
Proof.
  induction s as [|c s IH]; intros H; [reflexivity|]. cbn [openings]. destruct (free_plain _ H c (or_introl eq_refl)) as [H1 H2].
  apply N.eqb_neq in H1, H2. rewrite H1, H2. cbn [orb]. apply IH. intros d Hd. apply H. right. exact Hd.
Qed.

Lemma kids_openings ps ts :
  length ps = length ts -> (forall p, In p ps -> free p) -> (forall t, In t ts -> openings (rend t) = nodes t) ->
  openings (kids ps ts) = list_sum (map nodes ts).
Proof.
  revert ts. induction ps as [|p ps IH]; intros [|t ts] Hl Hp Ht; try discriminate; [reflexivity|].
  assert (Hf : openings p = O) by (apply free_openings, Hp; left; reflexivity).
  assert (Hx : openings (rend t) = nodes t) by (apply Ht; left; reflexivity).
  change (list_sum (map nodes (t :: ts))) with (nodes t + list_sum (map nodes ts))%nat.
  destruct ps as [|q ps], ts as [|u ts]; try discriminate.
  - rewrite kids_one, openings_app. cbn. lia.
  - rewrite kids_cons, !openings_app, Hf, Hx. cbn [openings N.eqb Pos.eqb orb].
    rewrite IH; [lia|cbn in *; lia|intros r Hr; apply Hp; right; exact Hr|intros r Hr; apply Ht; right; exact Hr].
Qed.

Lemma tree_openings t : tree_ok t -> openings (rend t) = nodes t.
Proof.
  induction t as [t IH] using tree_ind'. intros Hok. destruct t as [s|ks ts]; [apply free_openings; exact Hok|].
  assert (Hok' := Hok). cbn [tree_ok] in Hok'. destruct Hok' as [_ Hts]. rewrite (fold_all tree_ok) in Hts.
  change (rend (Node ks ts)) with (opening ks :: kids (prefixes ks ts) ts ++ [closing ks]).
  assert (Ho : openings (opening ks :: kids (prefixes ks ts) ts ++ [closing ks]) = S (openings (kids (prefixes ks ts) ts ++ [closing ks])))
    by (destruct ks; reflexivity).
  rewrite Ho, openings_app, kids_openings.
  - cbn [nodes]. destruct ks; cbn [closing openings N.eqb Pos.eqb orb]; lia.
  - apply prefix_length, Hok.
  - apply prefix_free, Hok.
  - intros u Hu. apply IH; [exact Hu|]. apply Hts, Hu.
Qed.

Lemma tree_read E numbers t :
  tree_ok t -> settled [] t -> t <> Leaf [] -> st_unserialize E numbers (rend t) = Ok (den E numbers [] t).
Proof.
  intros Hok Hs Hne. destruct t as [s|ks ts].
  - cbn [rend den]. destruct s as [|c s]; [congruence|]. unfold st_unserialize.
    destruct (free_plain _ Hok c (or_introl eq_refl)) as [H1 H2]. apply N.eqb_neq in H1, H2. rewrite H1, H2. cbn [orb].
    unfold token_value. reflexivity.
  - assert (Hu : st_unserialize E numbers (rend (Node ks ts)) = structured_value E numbers (rend (Node ks ts)))
      by (destruct ks; reflexivity).
    rewrite Hu. unfold structured_value. rewrite tree_openings by exact Hok.
    rewrite passes_tree; [reflexivity|reflexivity|exact Hok|exact Hs|lia|cbn [nodes]; discriminate].
Qed.

(** ** Values as trees *)

Lemma escape_free s : free s -> escape s = s.
Proof.
  induction s as [|c s IH]; intros H; [reflexivity|]. cbn [escape].
  assert (Hb : is_bracket c = false).
  { assert (Hc := H c (or_introl eq_refl)). unfold separator in Hc. cbn in Hc. unfold is_bracket.
    repeat match goal with |- context [N.eqb c ?x] => destruct (N.eqb_spec c x); [subst; tauto|] end. reflexivity. }
  rewrite Hb, IH; [reflexivity|]. intros d Hd. apply H. right. exact Hd.
Qed.

Lemma unescape_free s : free s -> unescape s = s.
Proof.
  induction s as [|c s IH]; intros H; [reflexivity|]. cbn [unescape]. destruct s as [|d s']; [reflexivity|].
  assert (Hc : (c =? 92)%N = false).
  { apply N.eqb_neq. intros ->. apply (H 92%N (or_introl eq_refl)). cbn. tauto. }
  rewrite Hc. cbn [andb]. rewrite IH; [reflexivity|]. intros x Hx. apply H. right. exact Hx.
Qed.

Lemma N_text_chars n c : In c (N_text n) -> (48 <= c <= 57)%N.
Proof.
  unfold N_text, render. intros Hc. apply in_map_iff in Hc. destruct Hc as [d [<- Hd]].
  assert (Hlt := digits_dig n). rewrite Forall_forall in Hlt. specialize (Hlt d Hd). unfold dig in Hlt. lia.
Qed.

Lemma Z_text_chars z c : In c (Z_text z) -> c = 45%N \/ (48 <= c <= 57)%N.
Proof.
  destruct z as [|p|p]; cbn [Z_text]; intros Hc; try (right; eapply N_text_chars; exact Hc).
  destruct Hc as [<-|Hc]; [left; reflexivity|right; eapply N_text_chars; exact Hc].
Qed.

Lemma Z_text_nonempty z : Z_text z <> [].
Proof.
  assert (Hn : forall n, N_text n <> []).
  { intros n H. unfold N_text, render in H. apply (f_equal (@length N)) in H. rewrite map_length in H.
    assert (Hd := digits_nonempty n). destruct (digits n); [congruence|discriminate]. }
  destruct z; cbn [Z_text]; [apply Hn|apply Hn|discriminate].
Qed.

Lemma Z_text_free z : free (Z_text z).
Proof.
  intros c Hc Hs. apply Z_text_chars in Hc. unfold separator in Hs. cbn in Hs. decompose [or] Hs; subst; try lia; assumption.
Qed.

Lemma Z_text_not_token z : ~ token_like (Z_text z).
Proof.
  intros [n H]. assert (Hin : In 124%N (Z_text z)) by (rewrite H; left; reflexivity). apply Z_text_chars in Hin. lia.
Qed.

Lemma simple_int E z : simple_value E true (Z_text z) = VInt z.
Proof.
  unfold simple_value. cbn [negb].
  assert (Hk : forall c w, c <> 45%N -> (57 < c)%N -> (c < 128)%N -> str_eqb (lower (e_ulower E) (Z_text z)) (c :: w) = false).
  { intros c w H1 H2 H3. apply str_eqb_neq. intros Heq. assert (Hne := Z_text_nonempty z). assert (Hch := Z_text_chars z).
    destruct (Z_text z) as [|d ds]; [congruence|]. specialize (Hch d (or_introl eq_refl)). unfold lower in Heq. cbn [flat_map] in Heq.
    assert (Hd : (d <? 128)%N = true) by lia. rewrite Hd in Heq. cbn [app] in Heq. injection Heq as Heq _.
    unfold lower_ascii in Heq. destruct (_ && _)%bool eqn:He in Heq; lia. }
  assert (Hw : forall w, In w [$"true"; $"false"; $"null"] -> str_eqb (lower (e_ulower E) (Z_text z)) w = false).
  { intros w [<-|[<-|[<-|[]]]]; [apply (Hk 116%N $"rue")|apply (Hk 102%N $"alse")|apply (Hk 110%N $"ull")]; lia. }
  rewrite !Hw by (cbn [In]; tauto).
  assert (Hdot : existsb (N.eqb 46) (Z_text z) = false).
  { apply Bool.not_true_is_false. intros H. apply existsb_exists in H. destruct H as [c [Hc He]]. apply N.eqb_eq in He. subst c.
    apply Z_text_chars in Hc. lia. }
  rewrite Hdot. rewrite (parse_int_text _ _ z); [reflexivity|]. apply integer_str_is_text.
Qed.

Lemma simple_plain E numbers s : plain_text E numbers s -> simple_value E numbers s = VStr s.
Proof.
  intros [Hf [_ [Hk Hn]]]. unfold simple_value.
  assert (H1 : forall w, In w [$"true"; $"false"; $"null"] -> str_eqb (lower (e_ulower E) s) w = false).
  { intros w Hw. apply str_eqb_neq. intros Heq. apply Hk. rewrite Heq. exact Hw. }
  rewrite !H1 by (cbn [In]; tauto). destruct numbers; cbn [negb]; [|rewrite unescape_free by exact Hf; reflexivity].
  destruct (Hn eq_refl) as [Hi Hfl]. rewrite Hi. destruct (existsb (N.eqb 46) s) eqn:He; [|reflexivity].
  rewrite Hfl; [reflexivity|]. apply existsb_exists in He. destruct He as [c [Hc He]]. apply N.eqb_eq in He. subst c. exact Hc.
Qed.

Lemma insert_item_perm {A} (kv : str * A) l : Permutation (kv :: l) (insert_item kv l).
Proof.
  induction l as [|kw l IH]; cbn [insert_item]; [apply Permutation_refl|]. destruct (str_leb (fst kv) (fst kw)); [apply Permutation_refl|].
  eapply Permutation_trans; [apply perm_swap|]. apply perm_skip, IH.
Qed.

Lemma sort_items_perm {A} (l : list (str * A)) : Permutation l (fold_right insert_item [] l).
Proof.
  induction l as [|kv l IH]; [apply Permutation_refl|]. cbn [fold_right]. eapply Permutation_trans; [apply perm_skip, IH|apply insert_item_perm].
Qed.

Lemma keyed_strs {A} (l : list (str * A)) :
  keyed (fun k => match k with VStr s => Some s | _ => None end) (map (fun kv => (VStr (fst kv), snd kv)) l) = Some l.
Proof. induction l as [|[k v] l IH]; [reflexivity|]. cbn [map keyed fst snd]. rewrite IH. reflexivity. Qed.

Lemma choose_trees {A} (P : A -> tree -> Prop) l : (forall x, In x l -> exists t, P x t) -> exists ts, Forall2 P l ts.
Proof.
  induction l as [|x l IH]; intros H; [exists []; constructor|].
  destruct (H x (or_introl eq_refl)) as [t Ht]. destruct IH as [ts Hts]; [intros y Hy; apply H; right; exact Hy|].
  exists (t :: ts). constructor; assumption.
Qed.

Definition as_tree (E : env) (numbers : bool) (v : val) (t : tree) : Prop :=
  st_serialize E v = Ok (rend t) /\ tree_ok t /\ settled [] t /\ (t = Leaf [] -> v = VStr [])
  /\ reordered v (den E numbers [] t).

Lemma leaf_tree E numbers v s : st_serialize E v = Ok s -> free s -> ~ token_like s -> (s = [] -> v = VStr []) ->
  simple_value E numbers s = v -> match v with VList _ | VTuple _ | VDict _ _ | VSurr _ _ _ _ => False | _ => True end ->
  as_tree E numbers v (Leaf s).
Proof.
  intros H1 H2 H3 H4 H5 H6. split; [exact H1|]. split; [exact H2|]. split; [right; exact H3|]. split; [intros [= ->]; auto|].
  cbn [den]. unfold token_value. cbn [aget]. rewrite H5. apply reordered_scalar, H6.
Qed.

Lemma not_token_first c s : c <> 124%N -> ~ token_like (c :: s).
Proof. intros H [n Hn]. injection Hn as Hn _. auto. Qed.

Ltac free_word := let c := fresh "c" in let H1 := fresh in let H2 := fresh in intros c H1 H2; unfold separator in H2; cbn in H1, H2; decompose [or] H1; decompose [or] H2; subst; try discriminate; assumption.

Lemma clean_tree E numbers v : clean E numbers v -> exists t, as_tree E numbers v t.
Proof.
  induction v as [v IH] using val_ind'. intros Hc. inversion Hc as [b|Hx|z Hn|s Hp|l Hl Hne|o l Hnd Hk Hv]; subst.
  - exists (Leaf (if b then $"true" else $"false")). apply leaf_tree; try exact I.
    + destruct b; reflexivity.
    + destruct b; free_word.
    + destruct b; apply not_token_first; discriminate.
    + destruct b; discriminate.
    + destruct b; reflexivity.
  - exists (Leaf $"null"). apply leaf_tree; try exact I; try reflexivity; try discriminate.
    + free_word.
    + apply not_token_first; discriminate.
  - exists (Leaf (Z_text z)). apply leaf_tree; try exact I.
    + reflexivity.
    + apply Z_text_free.
    + apply Z_text_not_token.
    + intros H. exfalso. exact (Z_text_nonempty z H).
    + apply simple_int.
  - exists (Leaf s). apply leaf_tree; try exact I.
    + cbn [st_serialize]. rewrite escape_free; [reflexivity|exact (proj1 Hp)].
    + exact (proj1 Hp).
    + exact (proj1 (proj2 Hp)).
    + intros ->. reflexivity.
    + apply simple_plain, Hp.
  - destruct (choose_trees (as_tree E numbers) l) as [ts Hts].
    { intros x Hx. apply IH; [exact Hx|apply Hl, Hx]. }
    exists (Node None ts). unfold as_tree. split; [|split; [|split; [|split]]].
    + cbn [st_serialize rend opening closing prefixes]. rewrite zip_nil_prefixes by (rewrite map_length; reflexivity).
      assert (Hgo : (fix go (l : list val) : res (list str) :=
                     match l with
                     | [] => Ok []
                     | x :: l' => do t <- st_serialize E x; do r <- go l'; Ok (t :: r)
                     end) l = Ok (map rend ts)).
      { clear - Hts. induction Hts as [|x t l ts [Hx _] _ IH]; [reflexivity|]. rewrite Hx. cbn [bind]. rewrite IH. reflexivity. }
      rewrite Hgo. reflexivity.
    + cbn [tree_ok]. rewrite (fold_all tree_ok). split.
      * intros ->. inversion Hts as [|x ? l0 ? Hx Hr]; subst. inversion Hr; subst. destruct Hx as [_ [_ [_ [Hx _]]]].
        apply Hne. rewrite (Hx eq_refl). reflexivity.
      * clear - Hts. induction Hts as [|x t l ts Hx _ IH]; intros u []; [subst; apply Hx|auto].
    + cbn [settled]. rewrite (fold_all (settled [])). clear - Hts. induction Hts as [|x t l ts Hx _ IH]; intros u []; [subst; apply Hx|auto].
    + discriminate.
    + cbn [den]. apply reordered_list. clear - Hts. induction Hts as [|x t l ts Hx _ IH]; constructor; [apply Hx|exact IH].
  - destruct (choose_trees (fun kv t => as_tree E numbers (snd kv) t) l) as [ts Hts].
    { intros [k x] Hx. apply IH; [cbn [subvals]; apply in_flat_map; exists (k, x); split; [exact Hx|right; left; reflexivity]|]. eapply Hv, Hx. }
    assert (Hq : exists q : list (str * (val * tree)),
      l = map (fun x => (VStr (fst x), fst (snd x))) q /\ forall x, In x q -> as_tree E numbers (fst (snd x)) (snd (snd x))).
    { clear - Hts Hk. induction Hts as [|[k x] t l ts Hx _ IH]; [exists []; split; [reflexivity|intros x []]|].
      destruct IH as [q [-> Hq]]; [intros k' v' Hin; eapply Hk; right; exact Hin|]. destruct (Hk k x (or_introl eq_refl)) as [s [-> _]].
      exists ((s, (x, t)) :: q). split; [reflexivity|]. intros y [<-|Hy]; [exact Hx|exact (Hq y Hy)]. }
    destruct Hq as [q [-> Hq]]. clear Hts ts.
    set (f := fun x : str * (val * tree) => (fst x, VStr (rend (snd (snd x))))).
    assert (Hp' := Permutation_sym (sort_items_perm (map f q))). destruct (Permutation_map_inv f _ Hp') as [q' [Hs Hperm]].
    assert (Hq' : forall x, In x q' -> In x q) by (intros x; apply Permutation_in, Permutation_sym, Hperm).
    exists (Node (Some (map fst q')) (map (fun x => snd (snd x)) q')). unfold as_tree. split; [|split; [|split; [|split]]].
    + assert (Hgo : (fix go (l : list (val * val)) : res (list (val * val)) :=
                     match l with
                     | [] => Ok []
                     | (k, x) :: l' => do t <- st_serialize E x; do r <- go l'; Ok ((k, VStr t) :: r)
                     end) (map (fun x => (VStr (fst x), fst (snd x))) q) = Ok (map (fun kv => (VStr (fst kv), snd kv)) (map f q))).
      { clear - Hq. induction q as [|[k [x t]] q IH]; [reflexivity|]. cbn [map fst snd]. destruct (Hq _ (or_introl eq_refl)) as [Hx _].
        cbn [fst snd] in Hx. rewrite Hx. cbn [bind]. rewrite IH; [reflexivity|]. intros y Hy. apply Hq. right. exact Hy. }
      cbn [st_serialize]. rewrite Hgo. cbn [bind]. unfold sorted_items. rewrite keyed_strs, Hs. cbn [bind].
      cbn [rend opening closing prefixes].
      assert (Hz : map (fun kv => text_of E (fst kv) ++ $":" ++ text_of E (snd kv)) (map (fun kv => (VStr (fst kv), snd kv)) (map f q'))
                   = zip (map (fun k => k ++ [58%N]) (map fst q')) (map rend (map (fun x => snd (snd x)) q'))).
      { clear. induction q' as [|[k [x t]] q' IH]; [reflexivity|]. cbn [map]. rewrite zip_cons, IH, <- app_assoc. reflexivity. }
      rewrite Hz. reflexivity.
    + cbn [tree_ok]. rewrite (fold_all tree_ok). split.
      * rewrite !map_length. split; [reflexivity|]. split.
        { apply (Permutation_NoDup (l := map fst q)); [apply Permutation_map, Hperm|].
          rewrite map_map in Hnd. cbn [fst] in Hnd. rewrite <- (map_map fst VStr) in Hnd. apply NoDup_map_inv in Hnd. exact Hnd. }
        { intros k Hin. apply in_map_iff in Hin. destruct Hin as [[k' [x t]] [<- Hin]]. apply Hq' in Hin.
          destruct (Hk (VStr k') x) as [s [[= <-] Hs']]; [|exact Hs']. apply in_map_iff. exists (k', (x, t)). auto. }
      * intros u Hu. apply in_map_iff in Hu. destruct Hu as [y [<- Hy]]. apply Hq', Hq in Hy. apply Hy.
    + cbn [settled]. rewrite (fold_all (settled [])). intros u Hu. apply in_map_iff in Hu. destruct Hu as [y [<- Hy]]. apply Hq', Hq in Hy. apply Hy.
    + discriminate.
    + cbn [den]. eapply reordered_dict; [apply Permutation_map, Hperm|].
      assert (Hq2 : forall x, In x q' -> as_tree E numbers (fst (snd x)) (snd (snd x))) by auto.
      clear - Hq2. induction q' as [|[k [x t]] q' IH]; cbn [map combine fst snd]; [constructor|].
      constructor; [|apply IH; intros y Hy; apply Hq2; right; exact Hy]. cbn [fst snd]. split; [reflexivity|].
      apply (Hq2 (k, (x, t))). left. reflexivity.
Qed.

(** @prop C58 Every nested list and dict of booleans, nulls and plain texts (and of integers, when
    numbers are parsed) is read back as it was written, up to the order of dict entries; the empty
    text by itself is not. *)
Lemma structuredtext_roundtrip :
  forall E numbers v, clean E numbers v -> v <> VStr [] ->
    exists t w, st_serialize E v = Ok t /\ st_unserialize E numbers t = Ok w /\ reordered v w.
Proof.
  intros E numbers v Hc Hne. destruct (clean_tree E numbers v Hc) as [t [H1 [H2 [H3 [H4 H5]]]]].
  exists (rend t), (den E numbers [] t). split; [exact H1|]. split; [|exact H5]. apply tree_read; auto.
Qed.

(** @example
Definition v58 := VDict false [(VStr $"b", VList [VStr $"x y"; VBool true; VNone; VInt (-12)]);
                               (VStr $"a", VDict true [(VStr $"c", VList [VList []; VStr []])])].
Example C58_example :
  clean env0 true v58
  /\ st_serialize env0 v58 = Ok $"{a:{c:[[],]},b:[x y,true,null,-12]}"
  /\ st_unserialize env0 true $"{a:{c:[[],]},b:[x y,true,null,-12]}"
     = Ok (VDict false [(VStr $"a", VDict false [(VStr $"c", VList [VList []; VStr []])]);
                        (VStr $"b", VList [VStr $"x y"; VBool true; VNone; VInt (-12)])]).
Proof.
  assert (Hp : forall s, forallb (fun c => negb (existsb (N.eqb c) $"{}[],\:|")) s = true -> plain_key s /\ ~ token_like s).
  { intros s Hs. rewrite forallb_forall in Hs.
    assert (Hn : forall c, In c s -> ~ In c $"{}[],\:|").
    { intros c Hc Hin. specialize (Hs c Hc). apply negb_true_iff in Hs. apply Bool.not_true_iff_false in Hs. apply Hs.
      apply existsb_exists. exists c. split; [exact Hin|apply N.eqb_refl]. }
    split.
    - intros c Hc. specialize (Hn c Hc). unfold separator. cbn in *. split; [tauto|intros ->; tauto].
    - intros [n ->]. apply (Hn 124%N); cbn; auto 12. }
  assert (Ht : forall s, s = $"x y" \/ s = [] -> plain_text env0 true s).
  { intros s Hs. assert (Hk : plain_key s /\ ~ token_like s) by (apply Hp; destruct Hs; subst; reflexivity). destruct Hk as [Hk Hl].
    split; [intros c Hc; apply (Hk c Hc)|]. split; [exact Hl|]. split.
    - cbn [In]. intros Hx. destruct Hs; subst; vm_compute in Hx; intuition discriminate.
    - intros _. split; destruct Hs; subst; try reflexivity; cbn; intuition discriminate. }
  split; [|split; vm_compute; reflexivity].
  unfold v58. apply clean_dict.
  - repeat constructor; cbn; intuition discriminate.
  - intros k v [[= <- <-]|[[= <- <-]|[]]]; eexists; (split; [reflexivity|]); apply Hp; reflexivity.
  - intros k v [[= <- <-]|[[= <- <-]|[]]].
    + apply clean_list; [|discriminate]. intros v [<-|[<-|[<-|[<-|[]]]]]; constructor; auto.
    + apply clean_dict.
      * repeat constructor; cbn; intuition discriminate.
      * intros k v [[= <- <-]|[]]; eexists; (split; [reflexivity|]); apply Hp; reflexivity.
      * intros k v [[= <- <-]|[]]. apply clean_list; [|discriminate]. intros v [<-|[<-|[]]].
        { apply clean_list; [intros v []|discriminate]. }
        { constructor. auto. }
Qed.
@end *)

(** ** C60: arbitrary texts *)

(** @prop C60 REFUTED: different values have one text, so that no parser could restore both: a text
    with a comma and two texts, the empty text in a list and nothing, the text "true" and the
    boolean, a number and its digits; and a text with brackets beside a list cannot be read at all. *)
Lemma structuredtext_texts_refuted :
  (exists a b, VList [VStr a] <> b /\ forall E, st_serialize E (VList [VStr a]) = st_serialize E b)
  /\ (forall E, st_serialize E (VList [VStr []]) = st_serialize E (VList []))
  /\ (forall E, st_serialize E (VStr $"true") = st_serialize E (VBool true))
  /\ (forall E z, st_serialize E (VInt z) = st_serialize E (VStr (Z_text z)))
  /\ exists v t, (forall E, st_serialize E v = Ok t) /\ forall E numbers, st_unserialize E numbers t = py ValueError.
Proof.
  split; [|split; [|split; [|split]]].
  - exists $"a,b", (VList [VStr $"a"; VStr $"b"]). split; [discriminate|reflexivity].
  - reflexivity.
  - reflexivity.
  - intros E z. cbn [st_serialize text_of]. rewrite escape_free; [reflexivity|apply Z_text_free].
  - exists (VDict false [(VStr $"a", VList [VStr $"x"]); (VStr $"j", VStr $"{b}")]), $"{a:[x],j:\{b\}}".
    split; [reflexivity|]. intros E [|]; vm_compute; try reflexivity.
Qed.

(** @example
Example C60_example : escape $"{b}" = $"\{b\}" /\ st_unserialize env0 false $"{a:[x],j:\{b\}}" = py ValueError.
Proof. vm_compute. auto. Qed.
@end *)

Lemma escape_head s : match escape s with c :: _ => is_bracket c = false | [] => True end.
Proof. destruct s as [|c s]; [exact I|]. cbn [escape]. destruct (is_bracket c) eqn:H; [reflexivity|exact H]. Qed.

Lemma unescape_escape s : unescape (escape s) = s.
Proof.
  induction s as [|c s IH]; [reflexivity|]. cbn [escape]. destruct (is_bracket c) eqn:Hc.
  - cbn [unescape]. rewrite Hc. cbn [N.eqb Pos.eqb andb]. rewrite IH. reflexivity.
  - assert (Hh := escape_head s). destruct (escape s) as [|d t] eqn:He.
    + cbn [unescape] in *. rewrite <- IH. reflexivity.
    + cbn [unescape]. rewrite Hh, Bool.andb_false_r. change (c :: unescape (d :: t) = c :: s). rewrite IH. reflexivity.
Qed.

(** @prop C60 What holds: a text by itself is preserved whatever characters it has, unless it is
    empty or (in any case) one of the three keywords; no two texts are written alike. *)
Lemma structuredtext_single_text_partial :
  forall E s,
    (s <> [] -> ~ In (lower (e_ulower E) s) [$"true"; $"false"; $"null"] ->
     exists t, st_serialize E (VStr s) = Ok t /\ st_unserialize E false t = Ok (VStr s))
    /\ forall s', st_serialize E (VStr s) = st_serialize E (VStr s') -> s = s'.
Proof.
  intros E s. split.
  - intros Hne Hk. exists (escape s). split; [reflexivity|]. unfold st_unserialize.
    assert (Hh := escape_head s). destruct (escape s) as [|c t] eqn:He.
    { exfalso. destruct s as [|d s]; [congruence|]. cbn [escape] in He. destruct (is_bracket d); discriminate. }
    assert (Ho : (c =? 123)%N || (c =? 91)%N = false).
    { unfold is_bracket in Hh. destruct (c =? 123)%N, (c =? 91)%N, (c =? 125)%N; cbn in *; congruence. }
    rewrite Ho. rewrite <- He. unfold simple_value.
    assert (H1 : forall w, In w [$"true"; $"false"; $"null"] -> str_eqb (lower (e_ulower E) (escape s)) w = false).
    { intros w Hw. apply str_eqb_neq. intros Heq.
      destruct (existsb is_bracket s) eqn:Hb.
      - assert (Hin : In 92%N (lower (e_ulower E) (escape s))).
        { unfold lower. apply in_flat_map. exists 92%N. split; [|left; reflexivity].
          clear - Hb. induction s as [|d s IH]; [discriminate|]. cbn [existsb] in Hb. cbn [escape]. destruct (is_bracket d); [left; reflexivity|].
          right. apply IH. exact Hb. }
        rewrite Heq in Hin. clear - Hw Hin. cbn [In] in Hw. destruct Hw as [<-|[<-|[<-|[]]]]; cbn in Hin; intuition discriminate.
      - assert (Hs : escape s = s).
        { clear - Hb. induction s as [|d s IH]; [reflexivity|]. cbn [existsb] in Hb. apply Bool.orb_false_iff in Hb. destruct Hb as [H1 H2].
          cbn [escape]. rewrite H1, IH by exact H2. reflexivity. }
        rewrite Hs in Heq. apply Hk. rewrite Heq. exact Hw. }
    rewrite !H1 by (cbn [In]; tauto). cbn [negb]. rewrite unescape_escape. reflexivity.
  - intros s' H. cbn [st_serialize] in H. injection H as H. rewrite <- (unescape_escape s), H. apply unescape_escape.
Qed.

(** @example
Example C60_single : ~ In (lower (e_ulower env0) $"a,\{[b]") [$"true"; $"false"; $"null"]
  /\ st_serialize env0 (VStr $"a,\{[b]") = Ok $"a,\\{\[b\]"
  /\ st_unserialize env0 false $"a,\\{\[b\]" = Ok (VStr $"a,\{[b]").
Proof. split; [vm_compute; intuition discriminate|]. vm_compute. auto. Qed.
@end *)
