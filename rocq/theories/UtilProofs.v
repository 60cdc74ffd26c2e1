(** * Nested paths, recursive merge, text utilities (C68 to C70). *)
(* @imports Spec Demo UtilSpec *)
From Coq Require Import ZifyBool ZifyN ZifyNat.
From Verif Require Import PyBaseFacts StructFacts StructProofs Spec Demo UtilSpec.

(** ** C68 *)

Lemma sget_split k x l : sget k l = Some x <->
  exists pre post, l = pre ++ (VStr k, x) :: post /\ ~ In (VStr k) (map fst pre).
Proof.
  split.
  - induction l as [|[k' v'] l IH]; [discriminate|]. intros H.
    assert (Hk : k' = VStr k \/ k' <> VStr k /\ sget k l = Some x).
    { destruct k'; cbn [sget] in H; try (right; split; [discriminate|exact H]).
      destruct (str_eqb_spec k s); [left; congruence|right; split; [congruence|exact H]]. }
    destruct Hk as [-> | [Hk H']].
    + cbn [sget] in H. rewrite str_eqb_refl in H. injection H as ->. exists [], l. split; [reflexivity|intros []].
    + destruct (IH H') as [pre [post [-> Hp]]]. exists ((k', v') :: pre), post. split; [reflexivity|].
      cbn. intros [Hc|Hc]; [congruence|exact (Hp Hc)].
  - intros [pre [post [-> Hp]]]. induction pre as [|[k' v'] pre IH]; cbn [app].
    + cbn [sget]. rewrite str_eqb_refl. reflexivity.
    + cbn in Hp. assert (Hk : k' <> VStr k) by tauto.
      destruct k'; cbn [sget]; try (apply IH; tauto). destruct (str_eqb_spec k s); [congruence|]. apply IH. tauto.
Qed.

Lemma item_at_sget v k x : item_at v k x <-> exists l, as_dict v = Some l /\ sget k l = Some x.
Proof.
  split.
  - intros [pre [post [H1 H2]]]. eexists. split; [exact H1|]. apply sget_split. eauto.
  - intros [l [H1 H2]]. apply sget_split in H2. destruct H2 as [pre [post [-> H2]]]. exists pre, post. auto.
Qed.

Lemma no_item_sget v k : no_item v k <-> exists l, as_dict v = Some l /\ sget k l = None.
Proof.
  assert (H : forall l, sget k l = None <-> ~ In (VStr k) (map fst l)).
  { intros l. rewrite sget_None. split.
    - intros Hn Hi. apply in_map_iff in Hi. destruct Hi as [[k' v'] [Hk Hi]]. cbn in Hk. subst. exact (Hn v' Hi).
    - intros Hn w Hi. apply Hn, in_map_iff. exists (VStr k, w). auto. }
  unfold no_item. split; intros [l [H1 H2]]; exists l; (split; [exact H1|apply H; exact H2]).
Qed.

Lemma dotted_split segs path : dotted segs path -> split_on 46 path = segs.
Proof. intros [H1 [H2 ->]]. apply split_join; assumption. Qed.

Lemma traverse_follows v segs x : traverse_segments v segs = Ok x <-> follows v segs x.
Proof.
  revert v. induction segs as [|k segs IH]; intros v; cbn [traverse_segments].
  - split; [intros [= ->]; constructor|intros H; inversion H; reflexivity].
  - split.
    + intros H. destruct (as_dict v) as [l|] eqn:Hl; [|discriminate]. destruct (sget k l) as [s|] eqn:Hs; [|discriminate].
      apply fo_step with s; [apply item_at_sget; eauto|apply IH, H].
    + intros H. inversion H as [|? ? sub ? ? Hi Hf]; subst. apply item_at_sget in Hi. destruct Hi as [l [-> ->]].
      apply IH, Hf.
Qed.

(** @prop C68 traverse_to_key returns exactly the value found by following the keys of the dotted
    path; it raises KeyError when a dict on the way misses the next key and TypeError when something
    else than a dict is on the way. *)
Lemma traverse_to_key_exact :
  forall v segs path, dotted segs path ->
    (forall x, traverse_to_key v path = Ok x <-> follows v segs x)
    /\ (traverse_to_key v path = Raise (XPy KeyError) <->
        exists p k q d, segs = p ++ k :: q /\ follows v p d /\ no_item d k)
    /\ (traverse_to_key v path = Raise (XPy TypeError) <->
        exists p k q d, segs = p ++ k :: q /\ follows v p d /\ as_dict d = None)
    /\ ((exists x, traverse_to_key v path = Ok x) \/ traverse_to_key v path = Raise (XPy KeyError)
        \/ traverse_to_key v path = Raise (XPy TypeError)).
Proof.
  intros v segs path Hd. unfold traverse_to_key. rewrite (dotted_split _ _ Hd). clear.
  split; [intros x; apply traverse_follows|]. split; [|split].
  - revert v. induction segs as [|k segs IH]; intros v; cbn [traverse_segments].
    + split; [discriminate|]. intros [p [k [q [d [H _]]]]]. destruct p; discriminate.
    + split.
      * intros H. destruct (as_dict v) as [l|] eqn:Hl; [|discriminate]. destruct (sget k l) as [s|] eqn:Hs.
        -- apply IH in H. destruct H as [p [k' [q [d [-> [Hf Hn]]]]]]. exists (k :: p), k', q, d.
           split; [reflexivity|]. split; [|exact Hn]. apply fo_step with s; [apply item_at_sget; eauto|exact Hf].
        -- exists [], k, segs, v. split; [reflexivity|]. split; [constructor|]. apply no_item_sget. eauto.
      * intros [p [k' [q [d [Heq [Hf Hn]]]]]]. destruct p as [|k0 p].
        -- injection Heq as <- <-. inversion Hf; subst. apply no_item_sget in Hn. destruct Hn as [l [-> ->]]. reflexivity.
        -- injection Heq as <- ->. inversion Hf as [|? ? sub ? ? Hi Hf']; subst. apply item_at_sget in Hi.
           destruct Hi as [l [-> ->]]. apply IH. exists p, k', q, d. auto.
  - revert v. induction segs as [|k segs IH]; intros v; cbn [traverse_segments].
    + split; [discriminate|]. intros [p [k [q [d [H _]]]]]. destruct p; discriminate.
    + split.
      * intros H. destruct (as_dict v) as [l|] eqn:Hl.
        -- destruct (sget k l) as [s|] eqn:Hs; [|discriminate].
           apply IH in H. destruct H as [p [k' [q [d [-> [Hf Hn]]]]]]. exists (k :: p), k', q, d.
           split; [reflexivity|]. split; [|exact Hn]. apply fo_step with s; [apply item_at_sget; eauto|exact Hf].
        -- exists [], k, segs, v. split; [reflexivity|]. split; [constructor|exact Hl].
      * intros [p [k' [q [d [Heq [Hf Hn]]]]]]. destruct p as [|k0 p].
        -- injection Heq as <- <-. inversion Hf; subst. rewrite Hn. reflexivity.
        -- injection Heq as <- ->. inversion Hf as [|? ? sub ? ? Hi Hf']; subst. apply item_at_sget in Hi.
           destruct Hi as [l [-> ->]]. apply IH. exists p, k', q, d. auto.
  - revert v. induction segs as [|k segs IH]; intros v; cbn [traverse_segments]; [left; eauto|].
    destruct (as_dict v) as [l|]; [|auto]. destruct (sget k l) as [s|]; [apply IH|auto].
Qed.

(** @example
Example C68_example :
  dotted [$"a"; $"b"] $"a.b"
  /\ traverse_to_key (VDict false [(VStr $"a", VDict false [(VStr $"b", VInt 1)])]) $"a.b" = Ok (VInt 1)
  /\ traverse_to_key (VDict false [(VStr $"a", VInt 1)]) $"a.b" = Raise (XPy TypeError)
  /\ traverse_to_key (VDict false [(VStr $"c", VInt 1)]) $"a.b" = Raise (XPy KeyError).
Proof.
  split; [|repeat split; reflexivity]. split; [discriminate|]. split; [|reflexivity].
  repeat constructor; cbn; intros [H|[]]; discriminate.
Qed.
@end *)

Lemma put_as_dict v l m : as_dict v = Some l -> as_dict (put_items v m) = Some m.
Proof. destruct v; try discriminate; reflexivity. Qed.

Lemma put_same v l : as_dict v = Some l -> put_items v l = v.
Proof. destruct v; try discriminate; intros [= ->]; reflexivity. Qed.

Lemma sset_same k x l : sget k l = Some x -> sset k x l = l.
Proof.
  induction l as [|[k' v'] l IH]; [discriminate|]. intros H. destruct k'; cbn [sget sset] in *; try (rewrite IH by exact H; reflexivity).
  destruct (str_eqb k s); [congruence|]. rewrite IH by exact H. reflexivity.
Qed.

Lemma sget_sset k k' x l : sget k (sset k' x l) = if str_eqb k k' then Some x else sget k l.
Proof.
  induction l as [|[k0 v0] l IH]; cbn [sset].
  - cbn [sget]. destruct (str_eqb k k'); reflexivity.
  - destruct k0; try (cbn [sget]; exact IH).
    destruct (str_eqb_spec k' s) as [->|Hn]; cbn [sget].
    + destruct (str_eqb k s); reflexivity.
    + rewrite IH. destruct (str_eqb_spec k s) as [->|]; [|reflexivity].
      destruct (str_eqb_spec s k'); [congruence|reflexivity].
Qed.

Lemma set_segments_spec v segs lastk x :
  match set_segments v segs lastk x with
  | (v', Ok tt) =>
      (exists d, follows v segs d /\ as_dict d <> None)
      /\ (forall r y, follows v' (segs ++ lastk :: r) y <-> follows x r y)
      /\ (forall q y, apart (segs ++ [lastk]) q -> (follows v' q y <-> follows v q y))
  | (v', Raise e) =>
      v' = v /\ ~ (exists d, follows v segs d /\ as_dict d <> None)
      /\ (e = XPy KeyError \/ e = XPy TypeError)
  end.
Proof.
  revert v. induction segs as [|k segs IH]; intros v; cbn [set_segments].
  - destruct (as_dict v) as [l|] eqn:Hl.
    + split; [exists v; split; [constructor|congruence]|]. split.
      * intros r y. cbn [app]. split.
        -- intros H. inversion H as [|? ? sub ? ? Hi Hf]; subst. apply item_at_sget in Hi. destruct Hi as [l' [Hl' Hs]].
           rewrite (put_as_dict _ _ _ Hl) in Hl'. injection Hl' as <-. rewrite sget_sset, str_eqb_refl in Hs.
           injection Hs as <-. exact Hf.
        -- intros H. apply fo_step with x; [|exact H]. apply item_at_sget. eexists.
           split; [apply (put_as_dict _ _ _ Hl)|]. rewrite sget_sset, str_eqb_refl. reflexivity.
      * intros q y [Ha1 Ha2]. cbn [app] in *. destruct q as [|k q]; [exfalso; apply (Ha2 [lastk]); reflexivity|].
        assert (Hk : str_eqb k lastk = false).
        { apply str_eqb_neq. intros ->. apply (Ha1 q). reflexivity. }
        split; intros H; inversion H as [|? ? sub ? ? Hi Hf]; subst; apply item_at_sget in Hi; destruct Hi as [l' [Hl' Hs]];
          (apply fo_step with sub; [|exact Hf]); apply item_at_sget.
        -- rewrite (put_as_dict _ _ _ Hl) in Hl'. injection Hl' as <-. rewrite sget_sset, Hk in Hs. eauto.
        -- eexists. split; [apply (put_as_dict _ _ _ Hl)|]. rewrite sget_sset, Hk. congruence.
    + split; [reflexivity|]. split; [|auto]. intros [d [Hf Hn]]. inversion Hf; subst. congruence.
  - destruct (as_dict v) as [l|] eqn:Hl.
    2:{ split; [reflexivity|]. split; [|auto]. intros [d [Hf Hn]]. inversion Hf as [|? ? sub ? ? Hi Hf']; subst.
        apply item_at_sget in Hi. destruct Hi as [l [Hl' _]]. congruence. }
    destruct (sget k l) as [sub|] eqn:Hs.
    2:{ split; [reflexivity|]. split; [|auto]. intros [d [Hf Hn]]. inversion Hf as [|? ? sub ? ? Hi Hf']; subst.
        apply item_at_sget in Hi. destruct Hi as [l' [Hl' Hs']]. congruence. }
    specialize (IH sub). destruct (set_segments sub segs lastk x) as [sub' [[]|e]].
    + destruct IH as [[d [Hd1 Hd2]] [IH1 IH2]].
      assert (Hget : forall k0 z, item_at (put_items v (sset k sub' l)) k0 z <->
                       (k0 = k /\ z = sub' \/ k0 <> k /\ item_at v k0 z)).
      { intros k0 z. rewrite !item_at_sget. split.
        - intros [l' [Hl' Hz]]. rewrite (put_as_dict _ _ _ Hl) in Hl'. injection Hl' as <-. rewrite sget_sset in Hz.
          destruct (str_eqb_spec k0 k) as [->|Hn]; [left; split; congruence|right; split; [exact Hn|eauto]].
        - intros H. eexists. split; [apply (put_as_dict _ _ _ Hl)|]. rewrite sget_sset.
          destruct H as [[-> ->]|[Hn [l' [Hl' Hz]]]]; [rewrite str_eqb_refl; reflexivity|].
          apply str_eqb_neq in Hn. rewrite Hn. congruence. }
      split; [exists d; split; [apply fo_step with sub; [apply item_at_sget; eauto|exact Hd1]|exact Hd2]|]. split.
      * intros r y. cbn [app]. rewrite <- IH1. split.
        -- intros H. inversion H as [|? ? s0 ? ? Hi Hf]; subst. apply Hget in Hi.
           destruct Hi as [[_ ->]|[Hc _]]; [exact Hf|congruence].
        -- intros H. apply fo_step with sub'; [apply Hget; auto|exact H].
      * intros q y [Ha1 Ha2]. cbn [app] in *.
        destruct q as [|k0 q]; [exfalso; apply (Ha2 (k :: segs ++ [lastk])); reflexivity|].
        assert (Hap : k0 = k -> apart (segs ++ [lastk]) q).
        { intros ->. split; intros r Hr; [apply (Ha1 r)|apply (Ha2 r)]; cbn [app]; rewrite Hr; reflexivity. }
        split; intros H; inversion H as [|? ? s0 ? ? Hi Hf]; subst.
        -- apply Hget in Hi. destruct Hi as [[-> ->]|[Hn Hi]].
           ++ apply fo_step with sub; [apply item_at_sget; eauto|]. apply IH2; auto.
           ++ apply fo_step with s0; assumption.
        -- destruct (str_dec k0 k) as [->|Hn].
           ++ assert (s0 = sub) by (apply item_at_sget in Hi; destruct Hi as [l' [Hl' Hz]]; congruence). subst s0.
              apply fo_step with sub'; [apply Hget; auto|]. apply IH2; auto.
           ++ apply fo_step with s0; [apply Hget; auto|exact Hf].
    + destruct IH as [-> [IH1 IH2]]. rewrite (sset_same _ _ _ Hs), (put_same _ _ Hl).
      split; [reflexivity|]. split; [|exact IH2]. intros [d [Hf Hn]]. apply IH1.
      inversion Hf as [|? ? s0 ? ? Hi Hf']; subst. apply item_at_sget in Hi. destruct Hi as [l' [Hl' Hz]].
      exists d. split; [|exact Hn]. congruence.
Qed.

Lemma dotted_last segs lastk path : dotted (segs ++ [lastk]) path ->
  removelast (split_on 46 path) = segs /\ last (split_on 46 path) [] = lastk.
Proof.
  intros H. rewrite (dotted_split _ _ H). split; [|apply last_last]. rewrite removelast_app by discriminate.
  cbn. apply app_nil_r.
Qed.

(** @prop C68 set_nested_value succeeds exactly when the path without its last key leads to a dict.
    Then traverse_to_key at the path returns the value set (and below it, what is below the value
    set), and every path that neither begins nor continues it leads where it led before.  Otherwise
    KeyError or TypeError is raised and nothing is modified. *)
Lemma set_nested_value_exact :
  forall v segs lastk path x,
    dotted (segs ++ [lastk]) path ->
    let v' := fst (set_nested_value v path x) in
    let r := snd (set_nested_value v path x) in
    (r = Ok tt <-> exists d, follows v segs d /\ as_dict d <> None)
    /\ (r = Ok tt ->
          traverse_to_key v' path = Ok x
          /\ (forall below y, follows v' (segs ++ lastk :: below) y <-> follows x below y)
          /\ forall q y, apart (segs ++ [lastk]) q -> (follows v' q y <-> follows v q y))
    /\ (r <> Ok tt -> v' = v /\ (r = Raise (XPy KeyError) \/ r = Raise (XPy TypeError))).
Proof.
  intros v segs lastk path x Hd v' r. subst v' r. unfold set_nested_value, traverse_to_key.
  destruct (dotted_last _ _ _ Hd) as [-> ->]. rewrite (dotted_split _ _ Hd).
  assert (H := set_segments_spec v segs lastk x). destruct (set_segments v segs lastk x) as [v' [[]|e]].
  - destruct H as [H1 [H2 H3]]. cbn [fst snd]. split; [tauto|]. split; [|congruence]. intros _.
    split; [|split; assumption]. apply traverse_follows, H2. constructor.
  - destruct H as [-> [H1 H2]]. cbn [fst snd]. split; [split; [discriminate|contradiction]|]. split; [discriminate|].
    intros _. split; [reflexivity|]. destruct H2; subst; auto.
Qed.

(** @example
Example C68_set_example :
  let v := VDict false [(VStr $"a", VDict false [(VStr $"b", VInt 1)]); (VStr $"c", VInt 2)] in
  set_nested_value v $"a.d" (VInt 3)
    = (VDict false [(VStr $"a", VDict false [(VStr $"b", VInt 1); (VStr $"d", VInt 3)]); (VStr $"c", VInt 2)], Ok tt)
  /\ set_nested_value v $"x.d" (VInt 3) = (v, Raise (XPy KeyError))
  /\ set_nested_value v $"c.d" (VInt 3) = (v, Raise (XPy TypeError))
  /\ apart [$"a"; $"d"] [$"a"; $"b"].
Proof. repeat split; intros r H; discriminate. Qed.
@end *)

(** ** C69 *)

Fixpoint merge_items (L : localtz) (l original : list (val * val)) : list (val * val) :=
  match l with
  | [] => original
  | (key, value) :: l' =>
      let value' :=
        match dget L key original with
        | Some source =>
            match as_dict source, as_dict value with
            | Some items, Some _ => put_items source (recursive_merge L items value)
            | _, _ => value
            end
        | None => value
        end in
      merge_items L l' (dset L key value' original)
  end.

Lemma recursive_merge_items L o a l : as_dict a = Some l -> recursive_merge L o a = merge_items L l o.
Proof.
  assert (H : forall l o, (fix go (l : list (val * val)) (original : list (val * val)) : list (val * val) :=
         match l with
         | [] => original
         | (key, value) :: l' =>
             let value' :=
               match dget L key original with
               | Some source =>
                   match as_dict source, as_dict value with
                   | Some items, Some _ => put_items source (recursive_merge L items value)
                   | _, _ => value
                   end
               | None => value
               end in
             go l' (dset L key value' original)
         end) l o = merge_items L l o).
  { clear. induction l as [|[k v] l IH]; intros o; cbn [merge_items]; [reflexivity|]. apply IH. }
  destruct a; try discriminate; intros [= ->]; apply H.
Qed.

Lemma dget_split L k x l : dget L k l = Some x <->
  exists pre k' post, l = pre ++ (k', x) :: post /\ veq L k' k = true
    /\ Forall (fun kv => veq L (fst kv) k = false) pre.
Proof.
  split.
  - induction l as [|[k' v'] l IH]; [discriminate|]. cbn [dget]. destruct (veq L k' k) eqn:Hk.
    + intros [= ->]. exists [], k', l. auto.
    + intros H. destruct (IH H) as [pre [k0 [post [-> [H1 H2]]]]]. exists ((k', v') :: pre), k0, post. auto.
  - intros [pre [k' [post [-> [H1 H2]]]]]. induction H2 as [|[k0 v0] pre Hk Hp IH]; cbn [app dget].
    + rewrite H1. reflexivity.
    + cbn in Hk. rewrite Hk. exact IH.
Qed.

Lemma value_at_dget L v k x : value_at L v k x <-> exists l, as_dict v = Some l /\ dget L k l = Some x.
Proof.
  split.
  - intros [pre [k' [post [H1 H2]]]]. eexists. split; [exact H1|]. apply dget_split. eauto.
  - intros [l [H1 H2]]. apply dget_split in H2. destruct H2 as [pre [k' [post [-> H2]]]]. exists pre, k', post. auto.
Qed.

Section Merge.
Variable (L : localtz) (K : val -> Prop).
Hypothesis HK : well_compared L K.

Lemma dget_dset_K k k' x l : K k -> K k' -> Forall (fun kv => K (fst kv)) l ->
  dget L k (dset L k' x l) = if veq L k' k then Some x else dget L k l.
Proof.
  destruct HK as [Hr [Hs Ht]]. intros H1 H2 Hl. induction Hl as [|[k0 v0] l H0 Hl IH]; cbn [dset].
  - cbn [dget]. destruct (veq L k' k); reflexivity.
  - cbn in H0. destruct (veq L k0 k') eqn:E0; cbn [dget].
    + destruct (veq L k0 k) eqn:E1; destruct (veq L k' k) eqn:E2; try reflexivity.
      * exfalso. assert (veq L k' k = true) by (apply (Ht k' k0 k); auto). congruence.
      * exfalso. assert (veq L k0 k = true) by (apply (Ht k0 k' k); auto). congruence.
    + destruct (veq L k0 k) eqn:E1; [|exact IH]. destruct (veq L k' k) eqn:E2; [|reflexivity].
      exfalso.
      assert (veq L k0 k' = true) by (apply (Ht k0 k k'); auto). congruence.
Qed.

Lemma dset_K k x l : K k -> Forall (fun kv => K (fst kv)) l -> Forall (fun kv => K (fst kv)) (dset L k x l).
Proof.
  intros Hk Hl. induction Hl as [|[k0 v0] l H0 Hl IH]; cbn [dset]; [constructor; [exact Hk|constructor]|].
  destruct (veq L k0 k); constructor; auto.
Qed.

(** What the merged dict has at a key. *)
Definition merged (ov : option val) (av : val) : val :=
  match ov with
  | Some source =>
      match as_dict source, as_dict av with
      | Some items, Some _ => put_items source (recursive_merge L items av)
      | _, _ => av
      end
  | None => av
  end.

Lemma merge_items_dget k l o : K k -> Forall (fun kv => K (fst kv)) l -> distinct L (map fst l) ->
  Forall (fun kv => K (fst kv)) o ->
  dget L k (merge_items L l o) =
  match dget L k l with Some av => Some (merged (dget L k o) av) | None => dget L k o end.
Proof.
  destruct HK as [Hr [Hs Ht]]. intros Hk Hl Hd. revert o Hd.
  induction Hl as [|[k0 v0] l H0 Hl IH]; intros o Hd Ho; cbn [merge_items dget]; [reflexivity|].
  cbn in H0. cbn [map fst distinct] in Hd. destruct Hd as [Hd0 Hd].
  fold (merged (dget L k0 o) v0). rewrite IH by (try apply dset_K; assumption).
  rewrite dget_dset_K by assumption. destruct (veq L k0 k) eqn:E.
  - assert (Hn : dget L k l = None).
    { apply dget_none. intros k' Hk'. destruct (veq L k' k) eqn:E'; [|reflexivity].
      assert (K k'). { apply in_map_iff in Hk'. destruct Hk' as [kv [<- Hi]]. rewrite Forall_forall in Hl. apply Hl, Hi. }
      rewrite <- (Hd0 k' Hk'). symmetry. apply (Ht k0 k k'); auto. }
    rewrite Hn. f_equal. f_equal.
    clear - Ho Hr Hs Ht H0 Hk E. induction Ho as [|[k1 v1] o H1 Ho IH]; [reflexivity|]. cbn [dget]. cbn in H1.
    destruct (veq L k1 k0) eqn:E1; destruct (veq L k1 k) eqn:E2; auto.
    + exfalso. assert (veq L k1 k = true) by (apply (Ht k1 k0 k); auto). congruence.
    + exfalso. assert (veq L k1 k0 = true) by (apply (Ht k1 k k0); auto). congruence.
  - reflexivity.
Qed.

Lemma keyed_dict v l : keyed K v -> as_dict v = Some l ->
  Forall (fun kv => K (fst kv)) l /\ forall k x, dget L k l = Some x -> keyed K x.
Proof.
  intros H Hl. inversion H as [? Hv]; subst. split.
  - rewrite Forall_forall. intros kv Hi. apply (Hv l Hl kv Hi).
  - intros k x Hx. apply dget_split in Hx. destruct Hx as [pre [k' [post [-> _]]]].
    apply (Hv _ Hl (k', x)). apply in_or_app. right. left. reflexivity.
Qed.

Lemma proper_dict v l : proper L v -> as_dict v = Some l ->
  distinct L (map fst l) /\ forall k x, dget L k l = Some x -> proper L x.
Proof.
  intros H Hl. inversion H as [? Hv _]; subst. split; [apply (Hv l Hl)|].
  intros k x Hx. apply dget_split in Hx. destruct Hx as [pre [k' [post [-> _]]]].
  apply (proj2 (Hv _ Hl) (k', x)). apply in_or_app. right. left. reflexivity.
Qed.

Lemma leaf_nil_dict v l x : as_dict v = Some l -> ~ leaf L v [] x.
Proof. intros Hl [H1 H2]. inversion H1; subst. congruence. Qed.

Lemma leaf_cons v k path x : leaf L v (k :: path) x <-> exists l s, as_dict v = Some l /\ dget L k l = Some s /\ leaf L s path x.
Proof.
  split.
  - intros [H1 H2]. inversion H1 as [|? ? s ? ? Hv Hh]; subst. apply value_at_dget in Hv. destruct Hv as [l [Hl Hs]].
    exists l, s. split; [exact Hl|]. split; [exact Hs|]. split; assumption.
  - intros [l [s [Hl [Hs [H1 H2]]]]]. split; [|exact H2]. apply ho_step with s; [apply value_at_dget; eauto|exact H1].
Qed.

Lemma holds_cons v k path x : holds L v (k :: path) x <-> exists l s, as_dict v = Some l /\ dget L k l = Some s /\ holds L s path x.
Proof.
  split.
  - intros H1. inversion H1 as [|? ? s ? ? Hv Hh]; subst. apply value_at_dget in Hv. destruct Hv as [l [Hl Hs]]. eauto.
  - intros [l [s [Hl [Hs H1]]]]. apply ho_step with s; [apply value_at_dget; eauto|exact H1].
Qed.

Definition undisturbed (a : val) (path : list val) : Prop :=
  (forall y, ~ holds L a path y) /\ forall p k q y, path = p ++ k :: q -> ~ leaf L a p y.

Lemma merge_leaves path : forall o lo a la m,
  as_dict o = Some lo -> as_dict a = Some la -> as_dict m = Some (recursive_merge L lo a) ->
  keyed K o -> keyed K a -> proper L a -> Forall K path ->
  forall x, leaf L m path x <-> leaf L a path x \/ leaf L o path x /\ undisturbed a path.
Proof.
  induction path as [|k path IH]; intros o lo a la m Ho Ha Hm HKo HKa Hpa Hpath x.
  - split; [intros H; exfalso; eapply leaf_nil_dict; eauto|].
    intros [H|[H _]]; exfalso; eapply leaf_nil_dict; [|exact H| |exact H]; eauto.
  - inversion Hpath as [|? ? Hk Hpath']; subst.
    destruct (keyed_dict o lo HKo Ho) as [Hlo Hlo']. destruct (keyed_dict a la HKa Ha) as [Hla Hla'].
    destruct (proper_dict a la Hpa Ha) as [Hd Hpa'].
    assert (Hget := merge_items_dget k la lo Hk Hla Hd Hlo). rewrite (recursive_merge_items L lo a la Ha) in Hm.
    rewrite !leaf_cons. destruct (dget L k la) as [av|] eqn:Hav.
    + (* the addition has the key *)
      assert (Hm' : (exists l s, as_dict m = Some l /\ dget L k l = Some s /\ leaf L s path x)
                    <-> leaf L (merged (dget L k lo) av) path x).
      { split.
        - intros [l [s [Hl [Hs H]]]]. congruence.
        - intros H. eexists. eexists. split; [exact Hm|]. split; [exact Hget|exact H]. }
      rewrite Hm'.
      assert (Ha' : (exists l s, as_dict a = Some l /\ dget L k l = Some s /\ leaf L s path x) <-> leaf L av path x).
      { split; [intros [l [s [Hl [Hs H]]]]; congruence|]. intros H. exists la, av. auto. }
      rewrite Ha'.
      assert (Hund : undisturbed a (k :: path) <-> (as_dict av <> None /\ undisturbed av path)).
      { unfold undisturbed. split.
        - intros [H1 H2]. split.
          + intros Hn. destruct path as [|k' path'].
            * apply (H1 av). apply holds_cons. exists la, av. split; [exact Ha|]. split; [exact Hav|constructor].
            * apply (H2 [k] k' path' av eq_refl). apply leaf_cons. exists la, av. split; [exact Ha|].
              split; [exact Hav|]. split; [constructor|exact Hn].
          + split.
            * intros y Hy. apply (H1 y). apply holds_cons. eauto.
            * intros p k' q y -> Hy. apply (H2 (k :: p) k' q y eq_refl). apply leaf_cons. eauto.
        - intros [H0 [H1 H2]]. split.
          + intros y Hy. apply holds_cons in Hy. destruct Hy as [l [s [Hl [Hs Hy]]]]. apply (H1 y). congruence.
          + intros p k' q y Hp Hy. destruct p as [|k0 p].
            * destruct Hy as [Hy1 Hy2]. inversion Hy1; subst. congruence.
            * injection Hp as <- ->. apply leaf_cons in Hy. destruct Hy as [l [s [Hl [Hs Hy]]]].
              apply (H2 p k' q y eq_refl). congruence. }
      rewrite Hund. unfold merged. destruct (dget L k lo) as [ov|] eqn:Hov.
      * assert (Ho' : (exists l s, as_dict o = Some l /\ dget L k l = Some s /\ leaf L s path x) <-> leaf L ov path x).
        { split; [intros [l [s [Hl [Hs H]]]]; congruence|]. intros H. exists lo, ov. auto. }
        rewrite Ho'. destruct (as_dict ov) as [lov|] eqn:Hlov; destruct (as_dict av) as [lav|] eqn:Hlav.
        -- rewrite (IH ov lov av lav); eauto.
           ++ assert (Some lav <> None) by discriminate. tauto.
           ++ apply (put_as_dict _ _ _ Hlov).
        -- split; [auto|]. intros [H|[_ [H _]]]; [exact H|congruence].
        -- split; [auto|]. intros [H|[H [_ [Hu1 Hu2]]]]; [exact H|]. exfalso.
           destruct path as [|k' path']; [apply (Hu1 av); constructor|].
           apply leaf_cons in H. destruct H as [l [s [Hl _]]]. congruence.
        -- split; [auto|]. intros [H|[_ [H _]]]; [exact H|congruence].
      * split; [auto|]. intros [H|[[l [s [Hl [Hs H]]]] _]]; [exact H|congruence].
    + (* only the original may have it *)
      assert (Hm' : (exists l s, as_dict m = Some l /\ dget L k l = Some s /\ leaf L s path x)
                    <-> (exists l s, as_dict o = Some l /\ dget L k l = Some s /\ leaf L s path x)).
      { split; intros [l [s [Hl [Hs H]]]].
        - exists lo, s. split; [exact Ho|]. split; [congruence|exact H].
        - eexists. exists s. split; [exact Hm|]. split; [congruence|exact H]. }
      rewrite Hm'. split.
      * intros H. right. split; [exact H|]. split.
        -- intros y Hy. apply holds_cons in Hy. destruct Hy as [l [s [Hl [Hs _]]]]. congruence.
        -- intros p k' q y Hp Hy. destruct p as [|k0 p].
           ++ destruct Hy as [Hy1 Hy2]. inversion Hy1; subst. congruence.
           ++ injection Hp as <- _. apply leaf_cons in Hy. destruct Hy as [l [s [Hl [Hs _]]]]. congruence.
      * intros [[l [s [Hl [Hs _]]]]|[H _]]; [congruence|exact H].
Qed.

End Merge.

(** @prop C69 After recursive_merge the leaf at a path is that of the addition if it has one there;
    otherwise that of the original, provided the addition has nothing at that path and no leaf on
    the way to it. *)
Lemma recursive_merge_leaves :
  forall L K o lo a la m,
    well_compared L K ->
    as_dict o = Some lo -> as_dict a = Some la -> as_dict m = Some (recursive_merge L lo a) ->
    keyed K o -> keyed K a -> proper L a ->
    forall path x, Forall K path ->
      (leaf L m path x <->
       leaf L a path x
       \/ leaf L o path x /\ (forall y, ~ holds L a path y)
          /\ (forall p k q y, path = p ++ k :: q -> ~ leaf L a p y)).
Proof.
  intros L K o lo a la m HK Ho Ha Hm HKo HKa Hpa path x Hpath.
  exact (merge_leaves L K HK path o lo a la m Ho Ha Hm HKo HKa Hpa Hpath x).
Qed.

(** @example
Example C69_example :
  let d l := VDict false l in
  let o := [(VStr $"a", d [(VStr $"b", VInt 1); (VStr $"c", VInt 2)]); (VStr $"e", d [(VStr $"f", VInt 3)])] in
  let a := d [(VStr $"a", d [(VStr $"c", VInt 4)]); (VStr $"e", VInt 5); (VStr $"g", VInt 6)] in
  recursive_merge (e_local env0) o a
  = [(VStr $"a", d [(VStr $"b", VInt 1); (VStr $"c", VInt 4)]); (VStr $"e", VInt 5); (VStr $"g", VInt 6)]
  /\ well_compared (e_local env0) (fun k => exists s, k = VStr s).
Proof.
  split; [reflexivity|].
  assert (Hq : forall a b, veq (e_local env0) (VStr a) (VStr b) = true <-> a = b)
    by (intros a b; cbn; apply PyBaseFacts.str_eqb_eq).
  split; [|split].
  - intros k [s ->]. apply Hq. reflexivity.
  - intros k k' [s ->] [s' ->] H. apply Hq in H. apply Hq. congruence.
  - intros k k' k'' [s ->] [s' ->] [s'' ->] H H'. apply Hq in H, H'. apply Hq. congruence.
Qed.
@end *)

(** ** C70 *)

(** @prop C70 indent puts the blanks before exactly the lines of the text, the first one only if
    asked. *)
Lemma indent_lines :
  forall n l ls, Forall (fun x => ~ In 10%N x) (l :: ls) ->
    indent (join [10%N] (l :: ls)) n true = join [10%N] (map (fun x => repeat 32%N n ++ x) (l :: ls))
    /\ indent (join [10%N] (l :: ls)) n false = join [10%N] (l :: map (fun x => repeat 32%N n ++ x) ls).
Proof.
  intros n l ls H. unfold indent. rewrite split_join by (assumption || discriminate). split; reflexivity.
Qed.

(** @example
Example C70_indent_example :
  indent ($"a" ++ [10%N] ++ $"b") 2 true = $"  a" ++ [10%N] ++ $"  b".
Proof. reflexivity. Qed.
@end *)

Lemma collapse_blank g rest inside : blank g -> g <> [] ->
  collapse inside (g ++ rest) = (if inside then [] else [32%N]) ++ collapse true rest.
Proof.
  intros H Hn. destruct H as [|c g Hc Hg]; [congruence|]. cbn [app collapse]. rewrite Hc.
  assert (Ht : collapse true (g ++ rest) = collapse true rest).
  { clear - Hg. induction Hg as [|c g Hc Hg IH]; [reflexivity|]. cbn [app collapse]. rewrite Hc. exact IH. }
  rewrite Ht. destruct inside; reflexivity.
Qed.

Lemma collapse_word w rest inside : word w -> collapse inside (w ++ rest) = w ++ collapse false rest.
Proof.
  intros [Hn H]. destruct H as [|c w Hc Hw]; [congruence|]. cbn [app collapse]. rewrite Hc. f_equal.
  clear - Hw. induction Hw as [|c w Hc Hw IH]; [reflexivity|]. cbn [app collapse]. rewrite Hc, IH. reflexivity.
Qed.

(** Collapsed text: words joined by single blanks, maybe one blank in front and one behind. *)
Lemma collapse_words s ws : words s ws -> forall inside,
  exists a b, (a = [] \/ a = [32%N]) /\ (b = [] \/ b = [32%N]) /\ (inside = true -> a = [])
    /\ collapse inside s = a ++ join [32%N] ws ++ b
    /\ (forall c r, s = c :: r -> is_space c = true -> inside = false -> a = [32%N] \/ ws = [] /\ b = [32%N]).
Proof.
  induction 1 as [g Hg|g w Hg Hw|g w c r ws Hg Hw Hc Hr IH]; intros inside.
  - destruct g as [|c g].
    + exists [], []. cbn. repeat split; auto. intros c r [=].
    + assert (H := collapse_blank (c :: g) [] inside Hg). rewrite app_nil_r in H. rewrite H by discriminate.
      exists (if inside then [] else [32%N]), []. destruct inside; cbn; repeat split; auto; try discriminate. 
  - destruct g as [|c g].
    + exists [], []. cbn [app]. split; [auto|]. split; [auto|]. split; [auto|]. split.
      * rewrite <- (app_nil_r w) at 1. rewrite collapse_word by exact Hw. reflexivity.
      * intros c r -> Hc _. destruct Hw as [_ Hw]. inversion Hw; subst. congruence.
    + rewrite collapse_blank by (assumption || discriminate).
      exists (if inside then [] else [32%N]), []. split; [destruct inside; auto|]. split; [auto|].
      split; [intros ->; reflexivity|]. split.
      * f_equal. rewrite <- (app_nil_r w) at 1. rewrite collapse_word by exact Hw. reflexivity.
      * intros c' r' _ _ ->. auto.
  - destruct (IH false) as [a [b [Ha [Hb [_ [He Hs]]]]]]. specialize (Hs c r eq_refl Hc eq_refl).
    assert (Htail : collapse false (c :: r) = match ws with [] => [32%N] | _ => [32%N] ++ join [32%N] ws ++ b end
                    /\ (ws = [] -> True)).
    { split; [|auto]. rewrite He. destruct Hs as [-> | [-> ->]].
      - destruct ws as [|w' ws']; [|reflexivity]. cbn [join app]. destruct Hb as [-> | ->]; [reflexivity|].
        exfalso. clear - Hr Hc He. cbn [join app] in He.
        inversion Hr as [g Hg| |]; subst.
        assert (Hq := collapse_blank (c :: r) [] false Hg). rewrite app_nil_r in Hq. rewrite Hq in He by discriminate.
        cbn in He. discriminate.
      - destruct Ha as [-> | ->]; [reflexivity|].
        exfalso. clear - Hr Hc He. cbn [join app] in He.
        inversion Hr as [g Hg| |]; subst.
        assert (Hq := collapse_blank (c :: r) [] false Hg). rewrite app_nil_r in Hq. rewrite Hq in He by discriminate.
        cbn in He. discriminate. }
    destruct Htail as [Htail _].
    exists (match g with [] => [] | _ => if inside then [] else [32%N] end), (match ws with [] => [32%N] | _ => b end).
    split; [destruct g, inside; auto|]. split; [destruct ws; auto|]. split; [intros ->; destruct g; reflexivity|].
    split.
    + assert (Hj : join [32%N] (w :: ws) ++ match ws with [] => [32%N] | _ => b end
                   = w ++ collapse false (c :: r)).
      { rewrite Htail. destruct ws as [|w' ws']; [reflexivity|]. rewrite join_cons by discriminate.
        rewrite <- !app_assoc. reflexivity. }
      rewrite Hj. destruct g as [|c' g'].
      * cbn [app]. apply collapse_word, Hw.
      * rewrite collapse_blank by (assumption || discriminate). f_equal. apply collapse_word, Hw.
    + intros c' r' Heq Hc' ->. destruct g as [|c0 g0]; [|auto]. exfalso. cbn [app] in Heq.
      destruct Hw as [Hw1 Hw2]. destruct Hw2 as [|c1 w1 H1 _]; [congruence|]. cbn in Heq. congruence.
Qed.

Lemma words_word s ws : words s ws -> Forall word ws.
Proof. induction 1; repeat constructor; auto; apply H0 || apply H0. Qed.

Lemma join_words_first ws c r : Forall word ws -> join [32%N] ws = c :: r -> is_space c = false.
Proof.
  intros H Hj. destruct H as [|w ws [Hn Hw] _]; [discriminate|]. destruct Hw as [|c' w Hc Hw]; [congruence|].
  destruct ws; cbn in Hj; injection Hj as <- _; exact Hc.
Qed.

Lemma join_words_last ws c r : Forall word ws -> join [32%N] ws = r ++ [c] -> is_space c = false.
Proof.
  intros H. revert r. induction H as [|w ws [Hn Hw] Hws IH]; intros r Hj.
  - destruct r; discriminate.
  - destruct ws as [|w' ws'].
    + cbn in Hj. subst w. apply Forall_app in Hw. destruct Hw as [_ Hw]. inversion Hw; assumption.
    + rewrite join_cons in Hj by discriminate.
      destruct (join [32%N] (w' :: ws')) as [|x y] eqn:Hjj.
      * exfalso. inversion Hws as [|? ? [Hn' _] _]; subst. destruct w' as [|z w']; [congruence|].
        destruct ws'; discriminate.
      * rewrite app_assoc in Hj. destruct (@exists_last _ (x :: y) ltac:(discriminate)) as [y' [z Hz]].
        rewrite Hz, app_assoc in Hj. apply app_inj_tail in Hj. destruct Hj as [_ ->]. apply (IH y'). congruence.
Qed.

(** @prop C70 minimize_string joins the words of the text by single blanks, and every text is a
    sequence of words separated by white space. *)
Lemma minimize_string_words :
  (forall s ws, words s ws -> minimize_string s = join [32%N] ws) /\ forall s, exists ws, words s ws.
Proof.
  split.
  - intros s ws H. assert (Hw := words_word _ _ H).
    destruct (collapse_words s ws H false) as [a [b [Ha [Hb [_ [He _]]]]]].
    unfold minimize_string. rewrite He. unfold strip.
    assert (Hl : forall t, (forall c r, t = c :: r -> c <> 32%N) -> lstrip (N.eqb 32) (a ++ t) = t).
    { intros t Ht. assert (Hid : lstrip (N.eqb 32) t = t).
      { apply lstrip_id. intros c r Hc. specialize (Ht c r Hc). lia. }
      destruct Ha as [-> | ->]; cbn; exact Hid. }
    assert (Hfirst : forall c r, join [32%N] ws = c :: r -> c <> 32%N).
    { intros c r Hc ->. apply join_words_first in Hc; [|exact Hw]. discriminate. }
    assert (Hrid : rstrip (N.eqb 32) (join [32%N] ws) = join [32%N] ws).
    { apply rstrip_id. intros c r Hc. destruct (N.eqb_spec 32 c) as [<-|]; [|reflexivity].
      apply join_words_last in Hc; [|exact Hw]. discriminate. }
    destruct (join [32%N] ws) as [|c r] eqn:Hj.
    + cbn [app]. destruct Ha as [-> | ->], Hb as [-> | ->]; reflexivity.
    + rewrite Hl by (intros c' r' [= <- _]; apply (Hfirst c r eq_refl)).
      destruct Hb as [-> | ->]; [rewrite app_nil_r; exact Hrid|].
      clear - Hrid. generalize dependent (c :: r). intros t Ht. 
      assert (Hr : forall u, rstrip (N.eqb 32) (u ++ [32%N]) = rstrip (N.eqb 32) u).
      { clear. induction u as [|x u IH]; [reflexivity|]. cbn [app rstrip]. rewrite IH. reflexivity. }
      rewrite Hr. exact Ht.
  - intros s. remember (length s) as n eqn:Hn. revert s Hn.
    induction n as [n IH] using lt_wf_ind. intros s Hn.
    (* leading blanks, then a word, then the rest *)
    assert (Hg : forall p : N -> bool, exists g t, s = g ++ t /\ Forall (fun c => p c = true) g
                   /\ forall c r, t = c :: r -> p c = false).
    { intros p. clear. induction s as [|c s IH].
      - exists [], []. split; [reflexivity|]. split; [constructor|discriminate].
      - destruct (p c) eqn:Hc.
        + destruct IH as [g [t [-> [H1 H2]]]]. exists (c :: g), t. auto.
        + exists [], (c :: s). split; [reflexivity|]. split; [constructor|]. intros c' r [= <- <-]. exact Hc. }
    destruct (Hg is_space) as [g [t [Hs [Hg1 Hg2]]]]. clear Hg.
    assert (Hw : exists w u, t = w ++ u /\ Forall (fun c => is_space c = false) w
                   /\ forall c r, u = c :: r -> is_space c = true).
    { clear. induction t as [|c t IH].
      - exists [], []. split; [reflexivity|]. split; [constructor|discriminate].
      - destruct (is_space c) eqn:Hc.
        + exists [], (c :: t). split; [reflexivity|]. split; [constructor|]. intros c' r [= <- <-]. exact Hc.
        + destruct IH as [w [u [-> [H1 H2]]]]. exists (c :: w), u. auto. }
    destruct Hw as [w [u [-> [Hw1 Hw2]]]]. destruct w as [|c w].
    + destruct u as [|c u].
      * exists []. rewrite Hs, app_nil_r. constructor. exact Hg1.
      * exfalso. specialize (Hg2 c u eq_refl). specialize (Hw2 c u eq_refl). congruence.
    + destruct u as [|c' u].
      * exists [c :: w]. rewrite Hs, app_nil_r. constructor; [exact Hg1|split; [discriminate|exact Hw1]].
      * destruct (IH (length (c' :: u))) with (s := c' :: u) as [ws Hws]; [|reflexivity|].
        { subst n s. rewrite !app_length. cbn. lia. }
        exists ((c :: w) :: ws). rewrite Hs. apply wo_more; [exact Hg1|split; [discriminate|exact Hw1]|apply (Hw2 c' u eq_refl)|exact Hws].
Qed.

(** @example
Example C70_words_example :
  let s := $"  a" ++ [10%N; 9%N] ++ $"bc " in
  words s [$"a"; $"bc"] /\ minimize_string s = $"a bc".
Proof.
  split; [|reflexivity].
  apply (wo_more $"  " $"a" 10%N ([9%N] ++ $"bc ")); [repeat constructor|split; [discriminate|repeat constructor]|reflexivity|].
  apply (wo_more [10%N; 9%N] $"bc" 32%N []); [repeat constructor|split; [discriminate|repeat constructor]|reflexivity|].
  constructor. repeat constructor.
Qed.
@end *)

Lemma words_blank g s ws : blank g -> words s ws -> words (g ++ s) ws.
Proof.
  intros Hg H. destruct H as [g' Hg'|g' w Hg' Hw|g' w c r ws Hg' Hw Hc Hr].
  - constructor. apply Forall_app. auto.
  - rewrite app_assoc. constructor; [apply Forall_app; auto|exact Hw].
  - rewrite app_assoc. constructor; try assumption. apply Forall_app. auto.
Qed.

(** @prop C70 minimize_string is idempotent. *)
Lemma minimize_string_idempotent :
  forall s, minimize_string (minimize_string s) = minimize_string s.
Proof.
  intros s. destruct minimize_string_words as [H1 H2]. destruct (H2 s) as [ws Hws].
  rewrite (H1 s ws Hws). apply H1. assert (Hw := words_word _ _ Hws). clear - Hw.
  induction Hw as [|w ws Hw Hws IH]; [constructor; constructor|].
  destruct ws as [|w' ws'].
  - apply (wo_last [] w); [constructor|exact Hw].
  - rewrite join_cons by discriminate. apply (wo_more [] w 32%N); [constructor|exact Hw|reflexivity|].
    apply (words_blank [32%N]); [repeat constructor|exact IH].
Qed.

(** @example
Example C70_idempotent_example : minimize_string (minimize_string $" a  b ") = $"a b".
Proof. reflexivity. Qed.
@end *)

(** @prop C70 abbreviate_string returns a text of at most four characters, or within the length asked for,
    unchanged; every longer text is a TypeError (the half length is a float on Python 3). *)
Lemma abbreviate_exact :
  forall s maxlength,
    ((length s <= 4)%nat \/ (Z.of_nat (length s) <= maxlength)%Z -> abbreviate_string s maxlength = Ok s)
    /\ ((4 < length s)%nat /\ (maxlength < Z.of_nat (length s))%Z ->
        abbreviate_string s maxlength = Raise (XPy TypeError)).
Proof.
  intros s m. unfold abbreviate_string. change (zlen s) with (Z.of_nat (length s)).
  destruct (Z.leb_spec (Z.of_nat (length s)) (Z.max m 4)); split; intros H'; try reflexivity; lia.
Qed.

(** @example
Example C70_abbreviate_example :
  abbreviate_string $"four" 0 = Ok $"four" /\ abbreviate_string $"fives" 5 = Ok $"fives"
  /\ abbreviate_string $"a longer text" 9 = Raise (XPy TypeError).
Proof. repeat split. Qed.
@end *)

(** @prop C70 pluralize returns the word itself for the quantity 1 (or 1.0, True, Decimal 1). *)
Lemma pluralize_singular :
  forall L w q, veq L q (VInt 1) = true -> pluralize L w q = w.
Proof. intros L w q H. unfold pluralize. rewrite H. reflexivity. Qed.

(** @example
Example C70_singular_example : pluralize (e_local env0) $"knife" (VBool true) = $"knife".
Proof. reflexivity. Qed.
@end *)

Lemma cut_spec suf w x : cut suf w = Some x <-> w = x ++ suf.
Proof.
  unfold cut. split.
  - destruct (str_eqb_spec (skipn (length w - length suf) w) suf) as [He|]; [|discriminate]. intros [= <-].
    rewrite <- He at 2. symmetry. apply firstn_skipn.
  - intros ->. rewrite app_length. replace (length x + length suf - length suf)%nat with (length x) by lia.
    rewrite skipn_app, skipn_all, Nat.sub_diag. cbn. rewrite str_eqb_refl. f_equal.
    rewrite firstn_app, Nat.sub_diag, firstn_all. cbn. apply app_nil_r.
Qed.

Lemma cut_none suf w : cut suf w = None -> ~ ends_in w suf.
Proof. intros H [x Hx]. apply cut_spec in Hx. congruence. Qed.

Lemma in_chars_spec s c : in_chars s c = true <-> In c s.
Proof.
  unfold in_chars. rewrite existsb_exists. split.
  - intros [x [H1 H2]]. apply N.eqb_eq in H2. congruence.
  - intros H. exists c. split; [exact H|apply N.eqb_refl].
Qed.

Lemma rev_last {A} (w : list A) c r : rev w = c :: r -> w = rev r ++ [c].
Proof. intros H. rewrite <- (rev_involutive w), H. reflexivity. Qed.

Lemma chomp_id w : (forall x, w <> x ++ [10%N]) -> chomp w = (w, []).
Proof.
  intros H. unfold chomp. destruct (rev w) as [|c r] eqn:Hr; [reflexivity|].
  destruct (N.eqb_spec c 10) as [->|]; [|reflexivity]. exfalso. apply (H (rev r)). apply rev_last, Hr.
Qed.

(** @prop C70 pluralize otherwise returns the plural of the word by the rules (for words that do
    not end with a newline). *)
Lemma pluralize_plural :
  forall L w q, veq L q (VInt 1) = false -> (forall x, w <> x ++ [10%N]) -> plural w (pluralize L w q).
Proof.
  intros L w q Hq Hw. unfold pluralize, sub_suffix, sub_end, ends. rewrite Hq, (chomp_id _ Hw).
  destruct (cut $"ife" w) as [x|] eqn:H1; [apply cut_spec in H1; rewrite app_nil_r; apply pl_ife, H1|].
  destruct (cut $"eau" w) as [x|] eqn:H2; [apply cut_spec in H2; rewrite app_nil_r; apply pl_eau, H2|].
  destruct (cut $"lf" w) as [x|] eqn:H3; [apply cut_spec in H3; rewrite app_nil_r; apply pl_lf, H3|].
  apply cut_none in H1, H2, H3. rewrite !orb_false_r.
  destruct (match rev w with c :: _ => in_chars $"sxz" c | [] => false end) eqn:H4.
  { destruct (rev w) as [|c r] eqn:Hr; [discriminate|]. apply in_chars_spec in H4. apply rev_last in Hr.
    eapply pl_sibilant; eauto. }
  assert (H4' : forall x c, w = x ++ [c] -> ~ In c $"sxz").
  { intros x c -> Hi. rewrite rev_app_distr in H4. cbn [rev app] in H4. apply in_chars_spec in Hi. congruence. }
  match goal with |- context [if ?b then w ++ $"es" else _] => destruct b eqn:H5 end.
  { destruct (rev w) as [|h [|c r]] eqn:Hr; try discriminate. apply andb_true_iff in H5. destruct H5 as [Hh Hc].
    apply N.eqb_eq in Hh. subst h. apply rev_last in Hr. cbn [rev] in Hr. rewrite <- app_assoc in Hr.
    apply (pl_h w (rev r) c Hr). intros Hi. apply in_chars_spec in Hi. rewrite Hi in Hc. discriminate. }
  assert (H5' : forall x c, w = x ++ [c] ++ $"h" -> In c $"aeioudgkprt").
  { intros x c Hx. assert (Hr : rev w = 104%N :: c :: rev x) by (rewrite Hx, !rev_app_distr; reflexivity).
    rewrite Hr in H5. apply in_chars_spec.
    destruct (in_chars $"aeioudgkprt" c) eqn:Hc; [reflexivity|]. exfalso.
    cbv beta iota in H5. first [discriminate | rewrite Hc in H5; discriminate]. }
  match goal with |- context [if ?b then _ else _] => destruct b eqn:H6 end.
  { destruct (rev w) as [|y [|c r]] eqn:Hr; try discriminate. apply andb_true_iff in H6. destruct H6 as [Hy Hc].
    apply N.eqb_eq in Hy. subst y. apply rev_last in Hr. cbn [rev] in Hr. 
    assert (Hcut : cut $"y" w = Some (rev r ++ [c])) by (apply cut_spec; exact Hr).
    rewrite Hcut, app_nil_r. rewrite <- app_assoc in Hr. apply orb_true_iff in Hc. destruct Hc as [Hc|Hc].
    - rewrite <- app_assoc. apply (pl_y w (rev r) c Hr). intros Hi. apply in_chars_spec in Hi. rewrite Hi in Hc. discriminate.
    - apply andb_true_iff in Hc. destruct Hc as [Hc Hq']. apply N.eqb_eq in Hc. subst c.
      destruct r as [|q' r]; [discriminate|]. apply N.eqb_eq in Hq'. subst q'.
      cbn [rev] in *. rewrite <- !app_assoc in *. apply (pl_quy w (rev r)). exact Hr. }
  apply pl_other; try assumption.
  - intros x c Hx. assert (Hr : rev w = 121%N :: c :: rev x) by (rewrite Hx, !rev_app_distr; reflexivity).
    rewrite Hr in H6. apply in_chars_spec.
    destruct (in_chars $"aeiou" c) eqn:Hc; [reflexivity|]. exfalso. cbv beta iota in H6. first [discriminate | rewrite Hc in H6; discriminate].
  - intros [x Hx]. assert (Hr : rev w = 121%N :: 117%N :: 113%N :: rev x) by (rewrite Hx, !rev_app_distr; reflexivity).
    rewrite Hr in H6. discriminate.
Qed.

(** @example
Example C70_plural_example :
  map (fun w => pluralize (e_local env0) w VNone) [$"knife"; $"box"; $"church"; $"city"; $"day"; $"soliloquy"; $"half"]
  = [$"knives"; $"boxes"; $"churches"; $"cities"; $"days"; $"soliloquies"; $"halves"].
Proof. reflexivity. Qed.
@end *)

Lemma chomp_line w : chomp (w ++ [10%N]) = (w, [10%N]).
Proof. unfold chomp. rewrite rev_app_distr. cbn [rev app N.eqb Pos.eqb]. rewrite rev_involutive. reflexivity. Qed.

(** @prop C70 At the end of a line both places match where a pattern may end: the newline stays behind the
    plural, except that the ending "es" is put both before and after it, and the ending "s" after it. *)
Lemma pluralize_line :
  forall L w q,
    veq L q (VInt 1) = false -> (forall x, w <> x ++ [10%N]) ->
    let out := pluralize L (w ++ [10%N]) q in
    (pluralize L w q = w ++ $"es" -> out = w ++ $"es" ++ [10%N] ++ $"es")
    /\ (pluralize L w q = w ++ $"s" -> out = w ++ [10%N] ++ $"s")
    /\ (pluralize L w q <> w ++ $"es" -> pluralize L w q <> w ++ $"s" -> out = pluralize L w q ++ [10%N]).
Proof.
  intros L w q Hq Hw out. unfold out, pluralize, sub_suffix, sub_end, ends. rewrite Hq, (chomp_id _ Hw), chomp_line. clear out Hq.
  destruct (cut $"ife" w) as [x|] eqn:H1.
  { apply cut_spec in H1. subst w. rewrite <- !app_assoc. cbn [app]. rewrite !app_nil_r. 
    split; [intros H; apply app_inv_head in H; discriminate|]. split; [intros H; apply app_inv_head in H; discriminate|reflexivity]. }
  destruct (cut $"eau" w) as [x|] eqn:H2.
  { apply cut_spec in H2. subst w. rewrite <- !app_assoc. cbn [app]. rewrite !app_nil_r. 
    split; [intros H; apply app_inv_head in H; discriminate|]. split; [intros H; apply app_inv_head in H; discriminate|reflexivity]. }
  destruct (cut $"lf" w) as [x|] eqn:H3.
  { apply cut_spec in H3. subst w. rewrite <- !app_assoc. cbn [app]. rewrite !app_nil_r. 
    split; [intros H; apply app_inv_head in H; discriminate|]. split; [intros H; apply app_inv_head in H; discriminate|reflexivity]. }
  rewrite !rev_app_distr. cbn [rev app]. change (in_chars $"sxz" 10) with false. cbn [N.eqb Pos.eqb andb].
  replace (match rev w with [] => false | _ :: _ => false end) with false by (destruct (rev w); reflexivity).
  rewrite !orb_false_r.
  destruct (match rev w with [] => false | c :: _ => in_chars $"sxz" c end).
  { split; [reflexivity|]. split; [intros H; apply app_inv_head in H; discriminate|congruence]. }
  match goal with |- context [if ?b then w ++ $"es" else _] => destruct b end.
  { split; [reflexivity|]. split; [intros H; apply app_inv_head in H; discriminate|congruence]. }
  match goal with |- context [if ?b then _ else _] => destruct b eqn:H6 end.
  { destruct (cut $"y" w) as [x|] eqn:Hy.
    - apply cut_spec in Hy. subst w. rewrite <- !app_assoc. cbn [app]. rewrite !app_nil_r.
      split; [intros H; apply app_inv_head in H; discriminate|]. split; [intros H; apply app_inv_head in H; discriminate|reflexivity].
    - exfalso. apply cut_none in Hy. apply Hy. destruct (rev w) as [|y [|c r]] eqn:Hr; try discriminate.
      apply andb_true_iff in H6. destruct H6 as [H6 _]. apply N.eqb_eq in H6. subst y. apply rev_last in Hr. exists (rev (c :: r)). exact Hr. }
  split; [intros H; apply app_inv_head in H; discriminate|]. split; [intros _; rewrite <- app_assoc; reflexivity|congruence].
Qed.

(** @example
Example C70_line_example :
  let nl := [10%N] in
  map (fun w => pluralize (e_local env0) (w ++ nl) VNone) [$"knife"; $"box"; $"day"; $"city"]
  = [$"knives" ++ nl; $"boxes" ++ nl ++ $"es"; $"day" ++ nl ++ $"s"; $"cities" ++ nl].
Proof. vm_compute. reflexivity. Qed.
@end *)

