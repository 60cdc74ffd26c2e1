(** * Map (C21, C22). *)
(* @imports Spec Demo *)
From Coq Require Import ZifyBool ZifyN ZifyNat.
From Verif Require Import PyBaseFacts Induct Spec Demo ProcessFacts ScalarProofs StructFacts.

Lemma key_seg_percent E k :
  key_seg E k = match percent_s E k with Some s => Ok (key_segment s) | None => py TypeError end.
Proof. destruct k; try reflexivity. destruct l as [|x [|y l]]; reflexivity. Qed.

(** What the loop does with one entry. *)
Definition map_step (E : env) (cv : child) (ck : option child) ph ser anc (kv : val * val)
  : res ((val * val) * bool) :=
  do name' <- match ck with
              | Some c =>
                  do seg <- key_seg E (fst kv);
                  match snd c ph ser (anc ++ [seg]) (fst kv) with
                  | Raise (XErr _) => verr anc $"invalidkeys"
                  | r => r
                  end
              | None => match fst kv with VStr _ => Ok (fst kv) | _ => verr anc $"invalidkeys" end
              end;
  do seg <- key_seg E name';
  do x <- collect (wrap_undef E (fst cv) (snd cv ph ser (anc ++ [seg]) (snd kv)));
  if hashable name' then Ok ((name', fst x), snd x) else py TypeError.

Lemma map_loop_traverse E cv ck ph ser anc items acc valid :
  map_loop E cv ck ph ser anc items acc valid =
  (do rs <- traverse (map_step E cv ck ph ser anc) items;
   Ok (set_all (e_local E) (map fst rs) acc, valid && forallb snd rs)).
Proof.
  revert acc valid. induction items as [|[k v] items IH]; intros acc valid; cbn [map_loop traverse].
  - cbn. rewrite andb_true_r. reflexivity.
  - unfold map_step at 1. cbn [fst snd].
    match goal with |- bind ?m _ = _ => destruct m as [name'|x]; cbn [bind]; [|reflexivity] end.
    destruct (key_seg E name') as [seg|x]; cbn [bind]; [|reflexivity].
    destruct (collect _) as [[e b]|x]; cbn [bind fst snd]; [|reflexivity].
    destruct (hashable name'); cbn [bind]; [|reflexivity].
    rewrite IH. destruct (traverse _ items) as [rs|x]; cbn [bind]; [|reflexivity].
    cbn [map fst snd set_all fold_left forallb]. rewrite andb_assoc. reflexivity.
Qed.

Lemma map_required_eq E anc req acc valid :
  Forall (fun k => hashable k = true) req -> distinct (e_local E) req ->
  map_required E anc req acc valid =
  let missing := filter (fun k => negb (dmem (e_local E) k acc)) req in
  Ok (acc ++ map (fun k => (k, token_error anc $"required")) missing,
      valid && match missing with [] => true | _ => false end).
Proof.
  revert acc valid. induction req as [|k req IH]; intros acc valid Hh Hd; cbn [map_required filter].
  - cbn. rewrite app_nil_r, andb_true_r. reflexivity.
  - inversion Hh as [|? ? Hk Hreq]; subst. destruct Hd as [Hd1 Hd2]. rewrite Hk.
    destruct (dmem (e_local E) k acc) eqn:Hm; cbn [negb].
    + rewrite IH by assumption. reflexivity.
    + rewrite IH by assumption. cbn zeta.
      assert (Hget : dget (e_local E) k acc = None).
      { unfold dmem in Hm. destruct (dget (e_local E) k acc); [discriminate|reflexivity]. }
      rewrite dset_new by exact Hget.
      assert (Hf : filter (fun k0 => negb (dmem (e_local E) k0
                     (acc ++ [(k, VErr (own_err CValidation anc $"required"))]))) req
                   = filter (fun k0 => negb (dmem (e_local E) k0 acc)) req).
      { apply filter_ext_in. intros k0 Hin. f_equal. unfold dmem.
        destruct (dget (e_local E) k0 acc) eqn:Hg.
        - clear - Hg. induction acc as [|[k1 v1] acc IH]; cbn in *; [discriminate|].
          destruct (veq (e_local E) k1 k0); [reflexivity|auto].
        - rewrite dget_app_none by exact Hg. cbn. rewrite (Hd1 k0 Hin). reflexivity. }
      rewrite Hf. cbn [map]. rewrite <- app_assoc. cbn [app]. rewrite andb_false_r. reflexivity.
Qed.

Lemma dmem_keys L k (l : list (val * val)) : dmem L k l = vmem L k (map fst l).
Proof.
  unfold dmem, vmem. induction l as [|[k' v'] l IH]; cbn; [reflexivity|].
  destruct (veq L k' k); [reflexivity|exact IH].
Qed.

Section M.
Variable E : env.
Variable desc : field -> res val.
Variable recon : val -> res field.
Variable n : nat.
Variables (p : params) (vf : field) (kf : option field) (req : option (list val)).
Variables (partial : bool) (ph : phase) (ser : bool) (anc : list str).
Notation L := (e_local E).
Let path := path_of p (KMap vf kf req) anc.
Let run f s x := process_gen E desc recon n f false ph ser (path ++ [key_segment s]) x.
Let key_ok k k' :=
  match kf with
  | None => k' = k /\ exists s, k = VStr s
  | Some f => exists s, percent_s E k = Some s /\ run f s k = Ok k'
  end.

Let cv : child := (vf, process_gen E desc recon n vf false).
Let ck : option child := option_map (fun g => (g, process_gen E desc recon n g false)) kf.

Lemma map_step_ok k v k' e b :
  defined E vf ->
  map_step E cv ck ph ser path (k, v) = Ok ((k', e), b) <->
  key_ok k k' /\ hashable k' = true
  /\ exists s, percent_s E k' = Some s /\ recorded (run vf s v) e /\ b = is_ok (run vf s v).
Proof.
  intros Hd. unfold map_step. cbn [fst snd]. rewrite bind_Ok.
  assert (Hkey : forall x,
    match ck with
    | Some c => do seg <- key_seg E k;
                match snd c ph ser (path ++ [seg]) k with
                | Raise (XErr _) => verr path $"invalidkeys" | r => r end
    | None => match k with VStr _ => Ok k | _ => verr path $"invalidkeys" end
    end = Ok x <-> key_ok k x).
  { intros x. unfold ck, key_ok. destruct kf as [f|]; cbn [option_map snd].
    - rewrite key_seg_percent. destruct (percent_s E k) as [s|]; cbn [bind].
      + fold (run f s k). split.
        * intros H. exists s. split; [reflexivity|]. destruct (run f s k) as [r|[|]]; try discriminate. exact H.
        * intros [s' [[= <-] H]]. rewrite H. reflexivity.
      + split; [discriminate|]. intros [s' [H _]]. discriminate.
    - destruct k; try (split; [discriminate|intros [_ [s' H]]; discriminate]).
      split; [intros [= <-]; eauto|intros [-> _]; reflexivity]. }
  split.
  - intros [name' [Hk H]]. apply Hkey in Hk. apply bind_Ok in H. destruct H as [seg [Hseg H]].
    apply bind_Ok in H. destruct H as [[e' b'] [Hc H]]. cbn [fst snd] in H.
    destruct (hashable name') eqn:Hh; [|discriminate]. injection H as <- <- <-.
    split; [exact Hk|]. split; [exact Hh|].
    rewrite key_seg_percent in Hseg. destruct (percent_s E name') as [s|] eqn:Hs; [|discriminate].
    injection Hseg as <-. exists s. split; [reflexivity|].
    unfold cv in Hc. cbn [fst snd] in Hc. rewrite wrap_defined in Hc by exact Hd.
    fold (run vf s v) in Hc.
    destruct (run vf s v) as [r|[er|x]]; cbn in Hc; try discriminate; injection Hc as <- <-; cbn; split;
      auto; [left; reflexivity|right; eauto].
  - intros [Hk [Hh [s [Hs [Hr ->]]]]]. exists k'. split; [apply Hkey, Hk|].
    rewrite key_seg_percent, Hs. cbn [bind]. unfold cv. cbn [fst snd].
    rewrite wrap_defined by exact Hd. fold (run vf s v).
    destruct Hr as [->|[er [-> ->]]]; cbn; rewrite Hh; reflexivity.
Qed.

Lemma process_map_eq o items :
  p_preprocessor p = None ->
  process_gen E desc recon n (Fld p (KMap vf kf req)) partial ph ser anc (VDict o items) =
  (do rs <- traverse (map_step E cv ck ph ser path) items;
   do r2 <- match req with
            | Some l => map_required E path l (set_all L (map fst rs) []) (forallb snd rs)
            | None => Ok (set_all L (map fst rs) [], forallb snd rs)
            end;
   if snd r2 then Ok (VDict false (fst r2)) else serr path (VDict false (fst r2))).
Proof.
  intros Hp. rewrite process_Fld. unfold process_body.
  rewrite (path_of_eq p (KMap vf kf req) anc) by reflexivity. cbn [kmap]. fold path.
  unfold process_map. rewrite is_null_some by discriminate. cbn [bind as_dict].
  unfold pre_raw. rewrite Hp. cbn [bind as_dict]. rewrite map_loop_traverse.
  fold cv. fold ck.
  destruct (traverse (map_step E cv ck ph ser path) items); reflexivity.
Qed.

(** The entries made from the items: processed key and what is recorded for the value. *)
Definition map_entries (R : res val -> val -> Prop) (items entries : list (val * val)) : Prop :=
  Forall2 (fun kv ke => key_ok (fst kv) (fst ke) /\ hashable (fst ke) = true
             /\ exists s, percent_s E (fst ke) = Some s /\ R (run vf s (snd kv)) (snd ke))
          items entries.

Lemma traverse_entries items rs :
  defined E vf ->
  traverse (map_step E cv ck ph ser path) items = Ok rs ->
  map_entries recorded items (map fst rs)
  /\ (forallb snd rs = true -> map_entries (fun o y => o = Ok y) items (map fst rs))
  /\ (forallb snd rs = false -> exists i kv ke s, nth_error items i = Some kv
        /\ nth_error (map fst rs) i = Some ke /\ percent_s E (fst ke) = Some s
        /\ rejected (run vf s (snd kv))).
Proof.
  intros Hd H. apply traverse_ok in H.
  induction H as [|[k v] [[k' e] b] items rs Hstep Hrest IH]; cbn [map fst].
  - repeat split; try constructor. discriminate.
  - apply map_step_ok in Hstep; [|exact Hd]. destruct Hstep as [Hk [Hh [s [Hs [Hr Hb]]]]].
    destruct IH as [IH1 [IH2 IH3]]. split; [|split].
    + constructor; [|exact IH1]. cbn [fst snd]. split; [exact Hk|]. split; [exact Hh|]. exists s. auto.
    + cbn [forallb snd]. intros Ht. apply andb_true_iff in Ht. destruct Ht as [-> Ht].
      constructor; [|apply IH2, Ht]. cbn [fst snd]. split; [exact Hk|]. split; [exact Hh|]. exists s. split; [exact Hs|].
      destruct Hr as [Hr|[er [Hr _]]]; [exact Hr|]. rewrite Hr in Hb. discriminate.
    + cbn [forallb snd]. intros Hf. apply andb_false_iff in Hf. destruct Hf as [->|Hf].
      * exists O, (k, v), (k', e), s. split; [reflexivity|]. split; [reflexivity|]. split; [exact Hs|].
        destruct Hr as [Hr|[er [Hr _]]]; rewrite Hr in Hb; [discriminate|]. exists er. exact Hr.
      * destruct (IH3 Hf) as [i [kv [ke [s' [H1 [H2 H3]]]]]]. exists (S i), kv, ke, s'. auto.
Qed.

Lemma entries_traverse items entries :
  defined E vf ->
  map_entries recorded items entries ->
  exists rs, traverse (map_step E cv ck ph ser path) items = Ok rs /\ map fst rs = entries
    /\ (map_entries (fun o y => o = Ok y) items entries -> forallb snd rs = true).
Proof.
  intros Hd H. induction H as [|[k v] [k' e] items entries Hke Hrest IH].
  - exists []. repeat split; auto.
  - destruct IH as [rs [Ht [Hm Ha]]]. cbn in Hke. destruct Hke as [Hk [Hh [s [Hs Hr]]]].
    exists (((k', e), is_ok (run vf s v)) :: rs). cbn [traverse map fst].
    split; [|split].
    + assert (Hstep : map_step E cv ck ph ser path (k, v) = Ok ((k', e), is_ok (run vf s v))).
      { apply map_step_ok; [exact Hd|]. eauto 8. }
      rewrite Hstep, Ht. reflexivity.
    + rewrite Hm. reflexivity.
    + intros Hm2. inversion Hm2 as [|? ? ? ? H1 H2]; subst. cbn in H1.
      destruct H1 as [_ [_ [s' [Hs' Hr']]]]. rewrite Hs in Hs'. injection Hs' as <-.
      cbn [forallb snd]. rewrite Hr'. cbn. apply Ha, H2.
Qed.
End M.

(** ** C21 *)

(** @prop C21 A map accepts a dict exactly when every key is a string (or is accepted by the key
    field), every value is accepted by the value field, and every required key is among the processed
    keys (which can be hashed). *)
Lemma map_accepts :
  forall E desc recon n p vf kf req partial ph ser anc o items,
    p_preprocessor p = None -> defined E vf ->
    Forall (fun k => hashable k = true) (match req with Some l => l | None => [] end) ->
    distinct (e_local E) (match req with Some l => l | None => [] end) ->
    let path := path_of p (KMap vf kf req) anc in
    let run f s x := process_gen E desc recon n f false ph ser (path ++ [key_segment s]) x in
    let out := process_gen E desc recon n (Fld p (KMap vf kf req)) partial ph ser anc (VDict o items) in
    let entry kv ke :=
      match kf with
      | None => fst ke = fst kv /\ exists s, fst kv = VStr s
      | Some f => exists s, percent_s E (fst kv) = Some s /\ run f s (fst kv) = Ok (fst ke)
      end
      /\ hashable (fst ke) = true
      /\ exists s, percent_s E (fst ke) = Some s /\ run vf s (snd kv) = Ok (snd ke) in
    (accepted out <->
     exists entries, Forall2 entry items entries
       /\ (forall l k, req = Some l -> In k l ->
             exists ke, In ke (set_all (e_local E) entries []) /\ veq (e_local E) (fst ke) k = true))
    /\ (forall entries, Forall2 entry items entries -> distinct (e_local E) (map fst entries) ->
        (forall l k, req = Some l -> In k l -> exists ke, In ke entries /\ veq (e_local E) (fst ke) k = true) ->
        out = Ok (VDict false entries)).
Proof.
  intros E desc recon n p vf kf req partial ph ser anc o items Hp Hd Hh Hdis path run out entry.
  assert (Hstep : forall entries, Forall2 entry items entries ->
            (forall l k, req = Some l -> In k l ->
               exists ke, In ke (set_all (e_local E) entries []) /\ veq (e_local E) (fst ke) k = true) ->
            out = Ok (VDict false (set_all (e_local E) entries []))).
  { intros entries He Hreq. unfold out. rewrite process_map_eq by exact Hp.
    destruct (entries_traverse E desc recon n p vf kf req ph ser anc items entries Hd) as [rs [Ht [Hm Ha]]].
    { eapply Forall2_impl; [|exact He]. intros kv ke [H1 [H2 [s [H3 H4]]]].
      split; [exact H1|]. split; [exact H2|]. exists s. split; [exact H3|]. left. exact H4. }
    rewrite Ht. cbn [bind]. rewrite Hm, (Ha He).
    destruct req as [l|]; [|reflexivity].
    rewrite map_required_eq by assumption. cbn zeta.
    assert (Hf : filter (fun k => negb (dmem (e_local E) k (set_all (e_local E) entries []))) l = []).
    { clear - Hreq. assert (Hreq' := fun k => Hreq l k eq_refl). clear Hreq.
      induction l as [|k l IH]; cbn; [reflexivity|].
      destruct (Hreq' k (or_introl eq_refl)) as [ke [Hin Hv]].
      assert (Hm : dmem (e_local E) k (set_all (e_local E) entries []) = true).
      { rewrite dmem_keys. unfold vmem. apply existsb_exists. exists (fst ke). split; [|exact Hv].
        apply in_map, Hin. }
      rewrite Hm. cbn. apply IH. intros k0 H0. apply Hreq'. right. exact H0. }
    rewrite Hf. cbn. rewrite app_nil_r. reflexivity. }
  split; [split|].
  - intros [r Hr]. unfold out in Hr. rewrite process_map_eq in Hr by exact Hp.
    apply bind_Ok in Hr. destruct Hr as [rs [Ht Hr]]. apply bind_Ok in Hr. destruct Hr as [[es b] [Hm Hr]].
    cbn [fst snd] in Hr. destruct b; [|discriminate].
    destruct (traverse_entries E desc recon n p vf kf req ph ser anc items rs Hd Ht) as [_ [H2 _]].
    exists (map fst rs).
    destruct req as [l|].
    + rewrite map_required_eq in Hm by assumption. cbn zeta in Hm. injection Hm as Hes Hb.
      apply andb_true_iff in Hb. destruct Hb as [Hb1 Hb2]. split; [apply H2, Hb1|].
      intros l' k [= <-] Hin.
      destruct (dmem (e_local E) k (set_all (e_local E) (map fst rs) [])) eqn:Hdm.
      * rewrite dmem_keys in Hdm. unfold vmem in Hdm. apply existsb_exists in Hdm.
        destruct Hdm as [k' [Hk' Hv]]. apply in_map_iff in Hk'. destruct Hk' as [ke [<- Hke]]. eauto.
      * exfalso. assert (Hf : In k (filter (fun k => negb (dmem (e_local E) k (set_all (e_local E) (map fst rs) []))) l)).
        { apply filter_In. rewrite Hdm. auto. }
        destruct (filter _ l); [destruct Hf|discriminate].
    + injection Hm as Hes Hb. split; [apply H2, Hb|discriminate].
  - intros [entries [He Hreq]]. eexists. apply Hstep; eassumption.
  - intros entries He Hdd Hreq.
    assert (Hs : set_all (e_local E) entries [] = entries) by (apply set_all_new; exact Hdd).
    rewrite (Hstep entries He); rewrite Hs; auto.
Qed.

(** @example
(* A map from integers to texts, serialized, with a required key. *)
Example C21_example :
  run0 (Fld p0 (KMap (Fld p0 (KText None None None true)) (Some (Fld p0 (KInteger None None)))
                     (Some [VInt 2])))
    Inbound true (VDict false [(VStr $"1", VStr $"a"); (VStr $" 2", VStr $"b ")])
  = Ok (VDict false [(VInt 1, VStr $"a"); (VInt 2, VStr $"b")]).
Proof. reflexivity. Qed.
@end *)

(** @prop C21 The rejections of a map: anything but a dict; a key that is not a string or is rejected
    by the key field; otherwise, when the processed keys are distinct, the error structure has one
    entry for each item, its error or its result, and a [required] error for each missing key. *)
Lemma map_errors :
  forall E desc recon n p vf kf req partial ph ser anc v,
    p_preprocessor p = None -> defined E vf ->
    Forall (fun k => hashable k = true) (match req with Some l => l | None => [] end) ->
    distinct (e_local E) (match req with Some l => l | None => [] end) ->
    let path := path_of p (KMap vf kf req) anc in
    let run f s x := process_gen E desc recon n f false ph ser (path ++ [key_segment s]) x in
    let out := process_gen E desc recon n (Fld p (KMap vf kf req)) partial ph ser anc v in
    let key_accepted k k' :=
      match kf with
      | None => k' = k /\ exists s, k = VStr s
      | Some f => exists s, percent_s E k = Some s /\ run f s k = Ok k'
      end in
    let key_rejected k :=
      match kf with
      | None => forall s, k <> VStr s
      | Some f => exists s, percent_s E k = Some s /\ rejected (run f s k)
      end in
    let entry kv ke :=
      key_accepted (fst kv) (fst ke) /\ hashable (fst ke) = true
      /\ exists s, percent_s E (fst ke) = Some s /\ recorded (run vf s (snd kv)) (snd ke) in
    (as_dict v = None -> v <> VNone -> out = invalid_type path)
    /\ (forall o before kv after entries, v = VDict o (before ++ kv :: after) ->
        Forall2 entry before entries -> key_rejected (fst kv) -> out = fails path $"invalidkeys")
    /\ (forall o items entries, v = VDict o items ->
        Forall2 entry items entries -> distinct (e_local E) (map fst entries) ->
        ~ Forall2 (fun kv ke => exists s, percent_s E (fst ke) = Some s
                                /\ run vf s (snd kv) = Ok (snd ke)) items entries
        \/ (exists l k, req = Some l /\ In k l
            /\ forall ke, In ke entries -> veq (e_local E) (fst ke) k = false) ->
        exists missing,
          out = fails_with path
                  (VDict false (entries ++ map (fun k => (k, token_error path $"required")) missing))
          /\ forall k, In k missing <->
               exists l, req = Some l /\ In k l
                         /\ forall ke, In ke entries -> veq (e_local E) (fst ke) k = false).
Proof.
  intros E desc recon n p vf kf req partial ph ser anc v Hp Hd Hh Hdis path run out
    key_accepted key_rejected entry.
  split; [|split].
  - intros Hv Hn. unfold out. rewrite process_Fld. unfold process_body.
    rewrite (path_of_eq p (KMap vf kf req) anc) by reflexivity. cbn [kmap].
    unfold process_map. rewrite is_null_some by exact Hn. cbn [bind]. rewrite Hv. reflexivity.
  - intros o before kv after entries -> He Hk. unfold out. rewrite process_map_eq by exact Hp.
    match goal with |- bind ?m _ = _ => assert (Ht : m = verr path $"invalidkeys") end.
    { apply traverse_raise. exists before, kv, after. split; [reflexivity|]. split.
      - fold path. unfold map_step. destruct kf as [f|]; cbn [option_map snd].
        + destruct Hk as [s [Hs [e Hr]]]. rewrite key_seg_percent, Hs. cbn [bind].
          fold (run f s (fst kv)). rewrite Hr. reflexivity.
        + destruct (fst kv) eqn:Hf; try reflexivity. exfalso. eapply Hk. reflexivity.
      - destruct (entries_traverse E desc recon n p vf kf req ph ser anc before entries Hd He)
          as [rs [Ht _]]. apply traverse_ok in Ht. clear - Ht.
        induction Ht; constructor; eauto. }
    rewrite Ht. reflexivity.
  - intros o items entries -> He Hdd Hbad.
    exists (match req with
            | Some l => filter (fun k => negb (dmem (e_local E) k entries)) l
            | None => [] end).
    assert (Hmiss : forall l k, In k (filter (fun k => negb (dmem (e_local E) k entries)) l) <->
              In k l /\ forall ke, In ke entries -> veq (e_local E) (fst ke) k = false).
    { intros l k. rewrite filter_In. rewrite negb_true_iff, dmem_keys. unfold vmem. split.
      - intros [H1 H2]. split; [exact H1|]. intros ke Hke.
        destruct (veq (e_local E) (fst ke) k) eqn:Hv; [|reflexivity].
        rewrite <- H2. symmetry. apply existsb_exists. exists (fst ke). split; [apply in_map, Hke|exact Hv].
      - intros [H1 H2]. split; [exact H1|]. apply not_true_is_false. intros Hx.
        apply existsb_exists in Hx. destruct Hx as [k' [Hk' Hv]].
        apply in_map_iff in Hk'. destruct Hk' as [ke [<- Hke]]. rewrite (H2 ke Hke) in Hv. discriminate. }
    split.
    + unfold out. rewrite process_map_eq by exact Hp.
      destruct (entries_traverse E desc recon n p vf kf req ph ser anc items entries Hd He) as [rs [Ht [Hm Ha]]].
      rewrite Ht. cbn [bind]. rewrite Hm.
      assert (Hs : set_all (e_local E) entries [] = entries) by (apply set_all_new; exact Hdd).
      rewrite Hs.
      destruct (traverse_entries E desc recon n p vf kf req ph ser anc items rs Hd Ht) as [_ [H2 _]].
      rewrite Hm in H2. fold path.
      assert (Hval : forallb snd rs = true ->
                Forall2 (fun kv ke => exists s, percent_s E (fst ke) = Some s
                                      /\ run vf s (snd kv) = Ok (snd ke)) items entries).
      { intros Hb. eapply Forall2_impl; [|apply H2, Hb]. intros kv ke [_ [_ Hx]]. exact Hx. }
      destruct req as [l|].
      * rewrite map_required_eq by assumption. cbn zeta. cbn [bind fst snd].
        match goal with |- (if ?b then _ else _) = _ => assert (Hb : b = false) end.
        { apply andb_false_iff. destruct (forallb snd rs); [right|left; reflexivity].
          destruct Hbad as [Hbad|[l' [k [[= <-] [Hin Hno]]]]]; [exfalso; apply Hbad, Hval; reflexivity|].
          assert (Hk : In k (filter (fun k => negb (dmem (e_local E) k entries)) l)) by (apply Hmiss; auto).
          destruct (filter _ l); [destruct Hk|reflexivity]. }
        rewrite Hb. reflexivity.
      * cbn [bind fst snd]. destruct (forallb snd rs).
        -- destruct Hbad as [Hbad|[l' [k [H _]]]]; [exfalso; apply Hbad, Hval; reflexivity|discriminate].
        -- cbn. rewrite app_nil_r. reflexivity.
    + intros k. destruct req as [l|].
      * rewrite Hmiss. split; [intros [H1 H2]; eauto|]. intros [l' [[= <-] H]]. exact H.
      * split; [intros []|]. intros [l' [H _]]. discriminate.
Qed.

(** @example
(* One bad value, one good value, one missing required key. *)
Example C21_errors_example :
  run0 (Fld p0 (KMap (Fld p0 (KInteger None None)) None (Some [VStr $"c"])))
    Inbound false (VDict false [(VStr $"a", VStr $"x"); (VStr $"b", VInt 2)])
  = fails_with [$"(map)"]
      (VDict false [(VStr $"a", VErr (Err CInvalidType [VDict false [(VStr $"token", VStr $"invalid")]]
                                          [$"(map)"; $"[a]"] None true));
                    (VStr $"b", VInt 2);
                    (VStr $"c", token_error [$"(map)"] $"required")]).
Proof. reflexivity. Qed.
@end *)

(** ** C22 *)

(** @prop C22 The claim does not hold: two keys of the value may be processed to the same key.  The
    result then has one entry for two items; and the failure of a value may be overwritten, so that
    the raised error contains no reason at all. *)
Lemma map_loses_entries_refuted :
  exists E desc recon n f items r e,
    distinct (e_local E) (map fst items)
    /\ process_gen E desc recon n f false Inbound true [] (VDict false items) = Ok (VDict false r)
    /\ length r <> length items
    /\ exists items', distinct (e_local E) (map fst items')
       /\ process_gen E desc recon n f false Inbound true [] (VDict false items') = Raise (XErr e)
       /\ er_errors e = [] /\ er_structure e = Some (VDict false [(VInt 1, VInt 7)]).
Proof.
  exists env0, nodesc, norecon, O,
    (Fld p0 (KMap (Fld p0 (KInteger (Some 5%Z) None)) (Some (Fld p0 (KInteger None None))) None)),
    [(VStr $"1", VInt 6); (VStr $"01", VInt 7)], [(VInt 1, VInt 7)],
    (Err CValidation [] [$"(map)"] (Some (VDict false [(VInt 1, VInt 7)])) true).
  split; [repeat split; intros k' Hk; cbn in Hk; intuition; subst; reflexivity|].
  split; [reflexivity|]. split; [discriminate|].
  exists [(VStr $"1", VInt 4); (VStr $"01", VInt 7)].
  split; [repeat split; intros k' Hk; cbn in Hk; intuition; subst; reflexivity|].
  split; [reflexivity|]. split; reflexivity.
Qed.

(** @prop C22 Part of the claim that holds: without a key field no entry is lost; every item is in
    the result (or in the error structure) under its own key. *)
Lemma map_keeps_entries_partial :
  forall E desc recon n p vf partial ph ser anc o items,
    p_preprocessor p = None -> defined E vf -> distinct (e_local E) (map fst items) ->
    let path := path_of p (KMap vf None None) anc in
    let run s x := process_gen E desc recon n vf false ph ser (path ++ [key_segment s]) x in
    let out := process_gen E desc recon n (Fld p (KMap vf None None)) partial ph ser anc (VDict o items) in
    (forall k x, In (k, x) items -> exists s, k = VStr s /\ orderly (run s x)) ->
    exists entries,
      Forall2 (fun kv ke => fst ke = fst kv
                 /\ exists s, fst kv = VStr s /\ recorded (run s (snd kv)) (snd ke)) items entries
      /\ (out = Ok (VDict false entries) \/ out = fails_with path (VDict false entries)).
Proof.
  intros E desc recon n p vf partial ph ser anc o items Hp Hd Hdis path run out Hall.
  assert (Hex : exists entries, Forall2 (fun kv ke => fst ke = fst kv
                 /\ exists s, fst kv = VStr s /\ recorded (run s (snd kv)) (snd ke)) items entries).
  { clear - Hall. induction items as [|[k x] items IH].
    - exists []. constructor.
    - destruct IH as [es Hes]. { intros k0 x0 H0. apply Hall. right. exact H0. }
      destruct (Hall k x (or_introl eq_refl)) as [s [-> Ho]].
      apply orderly_recorded in Ho. destruct Ho as [e He].
      exists ((VStr s, e) :: es). constructor; [|exact Hes]. cbn. eauto. }
  destruct Hex as [entries He]. exists entries. split; [exact He|].
  assert (Hfst : map fst entries = map fst items).
  { clear - He. induction He as [|kv ke l m [H _] _ IH]; cbn; congruence. }
  unfold out. rewrite process_map_eq by exact Hp.
  destruct (entries_traverse E desc recon n p vf None None ph ser anc items entries Hd) as [rs [Ht [Hm _]]].
  { eapply Forall2_impl; [|exact He]. intros kv ke [H1 [s [H2 H3]]].
    split; [split; [exact H1|eauto]|]. rewrite H1, H2. split; [reflexivity|].
    exists s. split; [reflexivity|exact H3]. }
  rewrite Ht. cbn [bind]. rewrite Hm.
  assert (Hs : set_all (e_local E) entries [] = entries).
  { apply set_all_new. cbn. rewrite Hfst. exact Hdis. }
  rewrite Hs. cbn [bind fst snd]. destruct (forallb snd rs); [left|right]; reflexivity.
Qed.

(** @example
(* Both entries, good and bad, are kept. *)
Example C22_example :
  run0 (Fld p0 (KMap (Fld p0 (KInteger (Some 5%Z) None)) None None))
    Inbound false (VDict false [(VStr $"1", VInt 4); (VStr $"01", VInt 7)])
  = fails_with [$"(map)"]
      (VDict false [(VStr $"1", VErr (Err CValidation [VDict false [(VStr $"token", VStr $"minimum")]]
                                          [$"(map)"; $"[1]"] None true));
                    (VStr $"01", VInt 7)]).
Proof. reflexivity. Qed.
@end *)
