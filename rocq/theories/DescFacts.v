(** * Facts about descriptions and reconstruction. *)
From Verif Require Import PyBaseFacts Induct ProcessFacts StructFacts StructProofs NumProofs CalText RtProofs ConFacts CloneFacts ConProofs.
From Verif Require Export DescSpec.
Open Scope Z_scope.

(** ** Iterations *)

Lemma dp_list desc l : describe_parameter desc (VList l) = do l' <- each (describe_parameter desc) l; Ok (VList l').
Proof. cbn. f_equal. induction l as [|x l IH]; cbn; [reflexivity|]. rewrite IH. reflexivity. Qed.
Lemma dp_tuple desc l : describe_parameter desc (VTuple l) = do l' <- each (describe_parameter desc) l; Ok (VTuple l').
Proof. cbn. f_equal. induction l as [|x l IH]; cbn; [reflexivity|]. rewrite IH. reflexivity. Qed.
Lemma dp_dict desc o l : describe_parameter desc (VDict o l)
  = do l' <- each (fun kv => do w <- describe_parameter desc (snd kv); Ok (fst kv, w)) l; Ok (VDict false l').
Proof.
  cbn. f_equal. induction l as [|[a x] l IH]; cbn; [reflexivity|]. rewrite IH. destruct (describe_parameter desc x); reflexivity.
Qed.

Definition cp (E : env) (n : nat) (v : val) : res val := snd (construct_parameter E n v).

Lemma cp_seq E n l : snd (clist E n l) = each (cp E n) l.
Proof.
  induction l as [|x l IH]; [reflexivity|]. cbn [clist each]. unfold cp at 1.
  destruct (construct_parameter E n x) as [x' [y|e]]; [|reflexivity]. cbn [snd bind]. rewrite <- IH.
  destruct (clist E n l) as [l2 [ys|e]]; reflexivity.
Qed.
Lemma cp_list E n l : cp E n (VList l) = do l' <- each (cp E n) l; Ok (VList l').
Proof.
  rewrite <- cp_seq. unfold cp. cbn [construct_parameter]. fold (clist E n). destruct (clist E n l) as [l2 [ys|e]]; reflexivity.
Qed.
Lemma cp_tuple E n l : cp E n (VTuple l) = do l' <- each (cp E n) l; Ok (VTuple l').
Proof.
  rewrite <- cp_seq. unfold cp. cbn [construct_parameter]. fold (clist E n). destruct (clist E n l) as [l2 [ys|e]]; reflexivity.
Qed.

Definition wanted_entry (skip : bool) (kv : val * val) : bool := negb (skip && is_fieldtype (fst kv)).
Lemma cp_run E n skip l : snd (crun E n skip l)
  = each (fun kv => do w <- cp E n (snd kv); Ok (fst kv, w)) (filter (wanted_entry skip) l).
Proof.
  induction l as [|[a x] l IH]; [reflexivity|]. cbn [crun filter]. unfold wanted_entry at 1. cbn [fst].
  destruct (skip && is_fieldtype a); cbn [negb]; [exact IH|]. cbn [each fst snd]. unfold cp at 1.
  destruct (construct_parameter E n x) as [x' [y|e]]; [|reflexivity]. cbn [snd bind]. rewrite <- IH.
  destruct (crun E n skip l) as [l2 [ys|e]]; reflexivity.
Qed.

Lemma filter_all {A} (f : A -> bool) l : (forall a, In a l -> f a = true) -> filter f l = l.
Proof.
  induction l as [|a l IH]; intros H; [reflexivity|]. cbn. rewrite H by (left; reflexivity). f_equal. apply IH.
  intros b Hb. apply H. right. exact Hb.
Qed.

Lemma cp_unfold E n o l : construct_parameter E n (VDict o l)
  = match sget $"fieldtype" l with
    | None => match crun E n false l with
              | (l', Ok ys) => (VDict o l', Ok (VDict false ys))
              | (l', Raise e) => (VDict o l', Raise e)
              end
    | Some t =>
        match class_named t with
        | Raise e => (VDict o (sdel $"fieldtype" l), Raise e)
        | Ok c =>
            match as_kwargs (sdel $"fieldtype" l) with
            | Raise e => (VDict o (sdel $"fieldtype" l), Raise e)
            | Ok _ =>
                match crun E n true l with
                | (l', Raise e) => (VDict o l', Raise e)
                | (l', Ok ys) =>
                    (VDict o l', do kw <- as_kwargs ys; do f <- init E (clone E n) c kw; Ok (VField f))
                end
            end
        end
    end.
Proof. reflexivity. Qed.

Lemma cp_dict E n o l : (forall kv, In kv l -> is_fieldtype (fst kv) = false) ->
  cp E n (VDict o l) = do l' <- each (fun kv => do w <- cp E n (snd kv); Ok (fst kv, w)) l; Ok (VDict false l').
Proof.
  intros H.
  assert (Hg : sget $"fieldtype" l = None).
  { apply sget_None. intros v Hi. apply H in Hi. discriminate. }
  unfold cp at 1. rewrite cp_unfold, Hg.
  pose proof (cp_run E n false l) as Hr. rewrite (filter_all (wanted_entry false)) in Hr by reflexivity. rewrite <- Hr.
  destruct (crun E n false l) as [l2 [ys|e]]; reflexivity.
Qed.

Lemma as_kwargs_strs l : ~ In $"cls" (map fst l) -> ~ In $"self" (map fst l) -> as_kwargs (strs l) = Ok l.
Proof.
  intros H1 H2. unfold as_kwargs, strs. rewrite each_map. rewrite each_id by (intros [a b] _; reflexivity). cbn [bind].
  apply smem_false in H1, H2. rewrite H1, H2. reflexivity.
Qed.

Lemma sget_strs s l : sget s (strs l) = aget s l.
Proof. induction l as [|[a b] l IH]; [reflexivity|]. cbn. destruct (str_eqb s a); [reflexivity|exact IH]. Qed.
Lemma sdel_strs s l : exists l', sdel s (strs l) = strs l' /\ forall x, In x l' -> In x l.
Proof.
  induction l as [|[a b] l [l' [IH Hi]]]; [exists []; split; [reflexivity|auto]|]. cbn. destruct (str_eqb s a).
  - exists l. split; [reflexivity|auto].
  - exists ((a, b) :: l'). split; [unfold strs in *; cbn; rewrite IH; reflexivity|]. intros x [<-|Hx]; [left; reflexivity|right; auto].
Qed.

(** Reading back a description: [rebuilt] is what its entries are read back as. *)
Lemma cp_field E n c items kw : aget $"fieldtype" items = Some (VStr (cls_name c)) ->
  ~ In $"cls" (map fst items) -> ~ In $"self" (map fst items) ->
  Forall2 (fun a b => fst b = fst a /\ cp E n (snd a) = Ok (snd b))
          (filter (fun kv => negb (str_eqb $"fieldtype" (fst kv))) items) kw ->
  cp E n (VDict false (strs items)) = do f <- init E (clone E n) c kw; Ok (VField f).
Proof.
  intros Hf Hc Hs Hkw. unfold cp. rewrite cp_unfold, sget_strs, Hf. cbn [class_named]. rewrite find_cls_name.
  destruct (sdel_strs $"fieldtype" items) as [l' [Hl Hi]]. rewrite Hl.
  assert (Hin : forall x l, (forall y, In y l -> In y items) -> In x (map fst l) -> In x (map fst items)).
  { intros x l H Hx. apply in_map_iff in Hx. destruct Hx as [y [<- Hy]]. apply in_map. auto. }
  rewrite as_kwargs_strs by (intros Hx; apply (Hin _ _ Hi) in Hx; contradiction).
  pose proof (cp_run E n true (strs items)) as Hr.
  assert (Hfs : filter (wanted_entry true) (strs items)
                = strs (filter (fun kv => negb (str_eqb $"fieldtype" (fst kv))) items)).
  { clear. unfold strs. induction items as [|[a b] l IH]; [reflexivity|]. cbn [map filter fst snd]. unfold wanted_entry at 1.
    cbn [andb fst is_fieldtype]. destruct (str_eqb $"fieldtype" a); cbn [negb]; [exact IH|]. cbn [map fst snd]. f_equal. exact IH. }
  rewrite Hfs in Hr.
  assert (He : each (fun kv => do w <- cp E n (snd kv); Ok (fst kv, w))
                 (strs (filter (fun kv => negb (str_eqb $"fieldtype" (fst kv))) items)) = Ok (strs kw)).
  { apply each_ok. unfold strs. clear -Hkw. induction Hkw as [|[a x] [b y] l l' [H1 H2] H IH]; cbn [map]; constructor; [|exact IH].
    cbn [fst snd] in *. subst b. rewrite H2. reflexivity. }
  rewrite He in Hr. destruct (crun E n true (strs items)) as [l2 r]. cbn [snd] in Hr. subst r. cbn [snd].
  assert (Hk : map fst kw = map fst (filter (fun kv => negb (str_eqb $"fieldtype" (fst kv))) items)).
  { clear -Hkw. induction Hkw as [|a b l l' [H1 _] _ IH]; [reflexivity|]. cbn. congruence. }
  rewrite as_kwargs_strs; [reflexivity|rewrite Hk|rewrite Hk];
    (intros Hx; apply Hin in Hx; [contradiction|]; intros y Hy; apply filter_In in Hy; apply Hy).
Qed.

(** ** Plain data *)

Lemma data_plain v : data v = true -> plainv v = true.
Proof.
  induction v as [v IH] using val_ind'. intros H. destruct v as [ | | | | | | | | | |l|l|o l|i l|i s w l|e|f]; try reflexivity; try discriminate;
    cbn [data plainv subvals] in *.
  - rewrite forallb_forall in *. intros x Hx. apply IH; auto.
  - rewrite forallb_forall in *. intros x Hx. apply IH; auto.
  - apply andb_prop in H. destruct H as [-> H]. cbn. rewrite forallb_forall in *. intros x Hx. specialize (H x Hx).
    apply andb_prop in H. apply IH; [|apply H]. apply in_flat_map. exists x. cbn. auto.
Qed.

Lemma data_fieldless v : data v = true -> fieldless v = true.
Proof.
  induction v as [v IH] using val_ind'. intros H. destruct v as [ | | | | | | | | | |l|l|o l|i l|i s w l|e|f]; try reflexivity; try discriminate;
    cbn [data fieldless subvals] in *.
  - rewrite forallb_forall in *. intros x Hx. apply IH; auto.
  - rewrite forallb_forall in *. intros x Hx. apply IH; auto.
  - apply andb_prop in H. destruct H as [_ H]. rewrite forallb_forall in *. intros x Hx. specialize (H x Hx).
    apply andb_prop in H. apply IH; [|apply H]. apply in_flat_map. exists x. cbn. auto.
Qed.

Lemma dp_plain desc v : plainv v = true -> describe_parameter desc v = Ok v.
Proof.
  induction v as [v IH] using val_ind'. intros H. destruct v as [ | | | | | | | | | |l|l|o l|i l|i s w l|e|f]; try reflexivity; try discriminate;
    cbn [plainv subvals] in *.
  - rewrite dp_list, each_id; [reflexivity|]. rewrite forallb_forall in H. intros x Hx. apply IH; auto.
  - rewrite dp_tuple, each_id; [reflexivity|]. rewrite forallb_forall in H. intros x Hx. apply IH; auto.
  - apply andb_prop in H. destruct H as [Ho H]. destruct o; [discriminate|]. rewrite dp_dict, each_id; [reflexivity|].
    rewrite forallb_forall in H. intros [a x] Hx. cbn [fst snd]. rewrite IH; [reflexivity| |apply (H _ Hx)].
    apply in_flat_map. exists (a, x). cbn. auto.
Qed.

Lemma cp_data E n v : data v = true -> cp E n v = Ok v.
Proof.
  induction v as [v IH] using val_ind'. intros H. destruct v as [ | | | | | | | | | |l|l|o l|i l|i s w l|e|f]; try reflexivity; try discriminate;
    cbn [data subvals] in *.
  - rewrite cp_list, each_id; [reflexivity|]. rewrite forallb_forall in H. intros x Hx. apply IH; auto.
  - rewrite cp_tuple, each_id; [reflexivity|]. rewrite forallb_forall in H. intros x Hx. apply IH; auto.
  - apply andb_prop in H. destruct H as [Ho H]. destruct o; [discriminate|]. rewrite forallb_forall in H.
    rewrite cp_dict, each_id; [reflexivity| |].
    + intros [a x] Hx. cbn [fst snd]. specialize (H _ Hx). cbn [fst snd] in H. apply andb_prop in H.
      rewrite IH; [reflexivity| |apply H]. apply in_flat_map. exists (a, x). cbn. auto.
    + intros kv Hx. specialize (H _ Hx). apply andb_prop in H. apply Bool.negb_true_iff, H.
Qed.

Lemma dp_told desc v : told v ->
  describe_parameter desc v = if data v then Ok v else py CannotDescribeError.
Proof.
  intros [H|H]; [rewrite H; apply dp_plain, data_plain, H|]. destruct v; try discriminate; reflexivity.
Qed.

Lemma told_fieldless v : told v -> fieldless (kept v) = true.
Proof. intros _. unfold kept. destruct (data v) eqn:H; [apply data_fieldless, H|reflexivity]. Qed.

(** ** Collecting the entries of a description *)

Lemma aset_In' {A} k (a : A) l x y : In (x, y) (aset k a l) -> In (x, y) l \/ x = k /\ y = a.
Proof.
  induction l as [|[s b] l IH]; cbn; [intros [H|[]]; injection H as <- <-; auto|].
  destruct (str_eqb_spec k s) as [-> |Hn]; cbn.
  - intros [H|H]; [injection H as <- <-; auto|auto].
  - intros [H|H]; [auto|]. destruct (IH H); auto.
Qed.

Lemma put_all_get desc l : forall acc,
  NoDup (map fst l) ->
  (forall kv, In kv l -> exists w, describe_parameter desc (snd kv) = Ok w \/ describe_parameter desc (snd kv) = py CannotDescribeError) ->
  exists r, put_all desc l acc = Ok r
    /\ (forall key, aget key r = match aget key l with
                                 | Some v => match describe_parameter desc v with Ok w => Some w | Raise _ => aget key acc end
                                 | None => aget key acc end)
    /\ (forall key w, In (key, w) r -> In (key, w) acc \/ exists v, In (key, v) l /\ describe_parameter desc v = Ok w).
Proof.
  induction l as [|[k v] l IH]; intros acc Hn H; [exists acc; cbn; auto|].
  inversion Hn as [|? ? Hk Hn']; subst. cbn [put_all].
  assert (Hl : aget k l = None).
  { destruct (aget k l) eqn:Hg; [|reflexivity]. apply aget_In in Hg. apply (in_map fst) in Hg. contradiction. }
  destruct (H (k, v) (or_introl eq_refl)) as [w [Hw|Hw]]; cbn [snd] in Hw; rewrite Hw.
  - destruct (IH (aset k w acc) Hn' (fun kv Hi => H kv (or_intror Hi))) as [r [H1 [H2 H3]]]. exists r. split; [exact H1|]. split.
    + intros key. rewrite H2. cbn [aget]. destruct (str_eqb_spec key k) as [-> |Hne].
      * rewrite Hl, Hw. apply aset_get_same.
      * rewrite aset_get_other by exact Hne. reflexivity.
    + intros key u Hi. destruct (H3 key u Hi) as [Ha|[v' [Hv' Hd]]]; [|right; exists v'; split; [right; exact Hv'|exact Hd]].
      destruct (aset_In' k w acc key u Ha) as [Hx|[-> ->]]; [left; exact Hx|right; exists v; split; [left; reflexivity|exact Hw]].
  - destruct (IH acc Hn' (fun kv Hi => H kv (or_intror Hi))) as [r [H1 [H2 H3]]]. exists r. split; [exact H1|]. split.
    + intros key. rewrite H2. cbn [aget]. destruct (str_eqb_spec key k) as [-> |Hne]; [|reflexivity]. rewrite Hl, Hw. reflexivity.
    + intros key u Hi. destruct (H3 key u Hi) as [Ha|[v' [Hv' Hd]]]; [left; exact Ha|right; exists v'; split; [right; exact Hv'|exact Hd]].
Qed.

Lemma Ok_inj {A} (a b : A) : Ok a = Ok b -> a = b.
Proof. congruence. Qed.

Definition tellable (desc : field -> res val) (v : val) : Prop :=
  exists w, describe_parameter desc v = Ok w \/ describe_parameter desc v = py CannotDescribeError.

Lemma put_all_other desc l : forall acc, (forall kv, In kv l -> tellable desc (snd kv)) ->
  exists r, put_all desc l acc = Ok r
    /\ (forall key, ~ In key (map fst l) -> aget key r = aget key acc)
    /\ (forall key w, In (key, w) r -> In (key, w) acc \/ exists v, In (key, v) l /\ describe_parameter desc v = Ok w).
Proof.
  induction l as [|[k v] l IH]; intros acc H; [exists acc; cbn; auto|]. cbn [put_all].
  destruct (H (k, v) (or_introl eq_refl)) as [w [Hw|Hw]]; cbn [snd] in Hw; rewrite Hw.
  - destruct (IH (aset k w acc) (fun kv Hi => H kv (or_intror Hi))) as [r [H1 [H2 H3]]]. exists r. split; [exact H1|]. split.
    + intros key Hk. cbn in Hk. rewrite H2 by auto. apply aset_get_other. intros ->. apply Hk. auto.
    + intros key u Hi. destruct (H3 key u Hi) as [Ha|[v' [Hv' Hd]]]; [|right; exists v'; split; [right; exact Hv'|exact Hd]].
      destruct (aset_In' k w acc key u Ha) as [Hx|[-> ->]]; [left; exact Hx|right; exists v; split; [left; reflexivity|exact Hw]].
  - destruct (IH acc (fun kv Hi => H kv (or_intror Hi))) as [r [H1 [H2 H3]]]. exists r. split; [exact H1|]. split.
    + intros key Hk. cbn in Hk. apply H2. auto.
    + intros key u Hi. destruct (H3 key u Hi) as [Ha|[v' [Hv' Hd]]]; [left; exact Ha|right; exists v'; split; [right; exact Hv'|exact Hd]].
Qed.

Lemma put_all_app desc l m acc : put_all desc (l ++ m) acc = do r <- put_all desc l acc; put_all desc m r.
Proof.
  revert acc. induction l as [|[k v] l IH]; intros acc; [reflexivity|]. cbn.
  destruct (describe_parameter desc v) as [w|[e|x]]; try apply IH; try reflexivity.
  destruct x; try reflexivity. apply IH.
Qed.

Definition wanted (pv : str -> val) (given : list str) (decl : list (str * val)) : list (str * val) :=
  flat_map (fun nd => let v := pv (fst nd) in
                      if smem (fst nd) given then []
                      else if negb (is_none v) && (false || negb (is_same v (snd nd)))
                      then [(fst nd, v)] else []) decl.

Lemma wanted_In pv given decl key v : In (key, v) (wanted pv given decl) ->
  In key (map fst decl) /\ v = pv key /\ ~ In key given.
Proof.
  unfold wanted. rewrite in_flat_map. intros [[s d] [Hi H]]. cbn [fst snd] in H.
  destruct (smem s given) eqn:Hs; [contradiction|].
  destruct (negb (is_none (pv s)) && (false || negb (is_same (pv s) d))); [|contradiction].
  destruct H as [H|[]]. injection H as <- <-. split; [apply (in_map fst) in Hi; exact Hi|]. split; [reflexivity|].
  apply smem_false, Hs.
Qed.

Lemma wanted_NoDup pv given decl : NoDup (map fst decl) -> NoDup (map fst (wanted pv given decl)).
Proof.
  induction decl as [|[s d] l IH]; intros H; [constructor|]. inversion H as [|? ? Hs Hl]; subst.
  unfold wanted. cbn [flat_map fst snd]. fold (wanted pv given l).
  destruct (smem s given); [apply IH, Hl|]. destruct (negb (is_none (pv s)) && (false || negb (is_same (pv s) d))); [|apply IH, Hl].
  cbn [app map fst]. constructor; [|apply IH, Hl]. intros Hi. apply in_map_iff in Hi. destruct Hi as [[a b] [Ha Hi]].
  cbn in Ha. subst a. apply wanted_In in Hi. destruct Hi as [Hi _]. contradiction.
Qed.

Lemma wanted_get pv given decl key : NoDup (map fst decl) ->
  aget key (wanted pv given decl)
  = match aget key decl with
    | Some d => if smem key given then None else if is_none (pv key) || is_same (pv key) d then None else Some (pv key)
    | None => None
    end.
Proof.
  induction decl as [|[s d] l IH]; intros H; [reflexivity|]. inversion H as [|? ? Hs Hl]; subst.
  unfold wanted. cbn [flat_map fst snd]. fold (wanted pv given l). cbn [aget].
  assert (Hn : aget s (wanted pv given l) = None).
  { destruct (aget s (wanted pv given l)) eqn:Hg; [|reflexivity]. apply aget_In, wanted_In in Hg. destruct Hg. contradiction. }
  destruct (str_eqb_spec key s) as [-> |Hne].
  - destruct (smem s given); [exact Hn|]. destruct (is_none (pv s)); [exact Hn|]. destruct (is_same (pv s) d); [exact Hn|].
    cbn. rewrite str_eqb_refl. reflexivity.
  - rewrite <- IH by exact Hl. destruct (smem s given); [reflexivity|].
    destruct (negb (is_none (pv s)) && (false || negb (is_same (pv s) d))); [|reflexivity]. cbn [app aget].
    destruct (str_eqb_spec key s); [contradiction|reflexivity].
Qed.

Fixpoint nodupb (l : list str) : bool :=
  match l with [] => true | x :: l' => negb (smem x l') && nodupb l' end.
Lemma nodupb_NoDup l : nodupb l = true -> NoDup l.
Proof.
  induction l as [|x l IH]; cbn; [constructor|]. intros H. apply andb_prop in H. destruct H as [H1 H2].
  constructor; [apply smem_false, Bool.negb_true_iff, H1|apply IH, H2].
Qed.

Lemma declared_NoDup c : NoDup (map fst (base_parameters ++ class_parameters c)).
Proof. apply nodupb_NoDup. destruct c; reflexivity. Qed.

Lemma NoDup_app' {A} (l m : list A) : NoDup l -> NoDup m -> (forall x, In x l -> In x m -> False) -> NoDup (l ++ m).
Proof.
  induction l as [|x l IH]; intros Hl Hm H; [exact Hm|]. inversion Hl as [|? ? Hx Hl']; subst. cbn. constructor.
  - intros Hi. apply in_app_or in Hi. destruct Hi as [Hi|Hi]; [contradiction|]. apply (H x); [left; reflexivity|exact Hi].
  - apply IH; auto. intros y H1 H2. apply (H y); [right; exact H1|exact H2].
Qed.

Definition reread (E : env) (n : nat) (v : val) : val := match cp E n v with Ok w => w | Raise _ => v end.

Definition special : list str := [$"fieldtype"; $"cls"; $"self"; []].

Lemma declared_special c key : In key (map fst (base_parameters ++ class_parameters c)) -> ~ In key special.
Proof.
  intros Hx.
  assert (Hns : forallb (fun key => negb (smem key special)) (map fst (base_parameters ++ class_parameters c)) = true)
    by (destruct c; reflexivity).
  rewrite forallb_forall in Hns. specialize (Hns key Hx). apply Bool.negb_true_iff, smem_false in Hns. exact Hns.
Qed.

Lemma kind_type_cls (k : kind) : kind_type k = cls_name (cls_of k).
Proof. destruct k; reflexivity. Qed.

Lemma described_kw E N desc p k given :
  NoDup (map fst given) ->
  (forall key w, In (key, w) given -> ~ In key special /\ (is_none w = false -> plainv w = true /\ exists y, cp E N w = Ok y)) ->
  (forall key, In key (map fst (base_parameters ++ class_parameters (cls_of k))) -> ~ In key (map fst given) ->
     told (parameter_value E p k key)) ->
  (forall key v, In (key, v) (p_aspects p) -> told v /\ ~ In key (reserved k)) ->
  exists items kw, describe_items E desc false p k given = Ok items
    /\ plainv (VDict false (strs items)) = true
    /\ cp E N (VDict false (strs items)) = (do f <- init E (clone E N) (cls_of k) kw; Ok (VField f))
    /\ (forall key, In key (reserved k) -> key <> $"fieldtype" ->
          aget key kw = match aget key given with
                        | Some w => if is_none w then None else Some (reread E N w)
                        | None => match aget key (base_parameters ++ class_parameters (cls_of k)) with
                                  | Some d => let v := parameter_value E p k key in
                                              if is_none v || is_same v d then None
                                              else if data v then Some v else None
                                  | None => None
                                  end
                        end)
    /\ (forall key w, In (key, w) kw -> key <> [] /\ (In key (map fst given) \/ fieldless w = true)).
Proof.
  intros Hng Hgiven Hdecl Hasp.
  set (decl := base_parameters ++ class_parameters (cls_of k)) in *.
  set (wd := wanted (parameter_value E p k) (map fst given) decl).
  set (gv := filter (fun kv : str * val => false || negb (is_none (snd kv))) given).
  set (asp := filter (fun kv : str * val => negb (is_none (snd kv))) (p_aspects p)).
  assert (Hrw : forall key, In key (map fst decl) -> In key (reserved k) \/ key = $"structural").
  { intros key Hi. unfold decl in Hi. rewrite map_app in Hi. apply in_app_or in Hi. unfold reserved. destruct Hi as [Hi|Hi].
    - cbn [base_parameters map fst In] in Hi.
      repeat (destruct Hi as [<-|Hi]; [first [right; reflexivity | left; apply in_or_app; left; apply smem_In; reflexivity]|]). contradiction.
    - left. apply in_or_app. right. apply in_or_app. left. apply smem_In. revert key Hi. apply Forall_forall. destruct k; repeat constructor. }
  assert (Hnd : NoDup (map fst (wd ++ gv))).
  { rewrite map_app. apply NoDup_app'; [apply wanted_NoDup, declared_NoDup| |].
    - unfold gv. clear -Hng. induction given as [|[a b] l IH]; [constructor|]. inversion Hng as [|? ? Ha Hl]; subst. cbn.
      destruct (negb (is_none b)); [|apply IH, Hl]. cbn. constructor; [|apply IH, Hl]. intros Hi. apply Ha.
      apply in_map_iff in Hi. destruct Hi as [x [<- Hi]]. apply filter_In in Hi. apply in_map, Hi.
    - intros key H1 H2. apply in_map_iff in H1. destruct H1 as [[a b] [<- H1]]. apply wanted_In in H1. destruct H1 as [_ [_ H1]].
      apply H1. cbn [fst] in *. apply in_map_iff in H2. destruct H2 as [x [Hx H2]]. apply filter_In in H2.
      rewrite <- Hx. apply in_map, H2. }
  assert (Ht : forall v, told v -> tellable desc v).
  { intros v Hv. exists v. rewrite (dp_told desc v Hv). destruct (data v); auto. }
  assert (Htold : forall key v, In (key, v) wd -> told v).
  { intros key v Hi. apply wanted_In in Hi. destruct Hi as [H1 [-> H2]]. apply Hdecl; assumption. }
  assert (Hgvin : forall key w, In (key, w) gv -> In (key, w) given /\ is_none w = false).
  { intros key w Hi. apply filter_In in Hi. destruct Hi as [H1 H2]. split; [exact H1|]. cbn in H2. apply Bool.negb_true_iff, H2. }
  destruct (put_all_other desc asp [($"fieldtype", VStr (kind_type k))]) as [a1 [Ha1 [Ha2 Ha3]]].
  { intros [key v] Hi. apply filter_In in Hi. destruct Hi as [Hi _]. apply Ht, (Hasp key v Hi). }
  destruct (put_all_get desc (wd ++ gv) a1 Hnd) as [items [Hi1 [Hi2 Hi3]]].
  { intros [key v] Hi. apply in_app_or in Hi. destruct Hi as [Hi|Hi]; [apply Ht, (Htold _ _ Hi)|].
    apply Hgvin in Hi. destruct Hi as [Hi Hn]. destruct (Hgiven _ _ Hi) as [_ Hp]. destruct (Hp Hn) as [Hp' _].
    exists v. left. cbn. apply dp_plain, Hp'. }
  (* every entry *)
  assert (Hentry : forall key w, In (key, w) items ->
            key = $"fieldtype" /\ w = VStr (kind_type k)
            \/ key <> $"fieldtype" /\ ~ In key special /\ plainv w = true
               /\ (data w = true \/ In (key, w) given /\ exists y, cp E N w = Ok y)).
  { assert (Hd : forall key v w, told v -> ~ In key special -> describe_parameter desc v = Ok w ->
              key <> $"fieldtype" /\ ~ In key special /\ plainv w = true
               /\ (data w = true \/ In (key, w) given /\ exists y, cp E N w = Ok y)).
    { intros key v w Hv Hk Hw. rewrite (dp_told desc v Hv) in Hw. destruct (data v) eqn:Hda; [|discriminate]. apply Ok_inj in Hw. subst w.
      split; [intros ->; apply Hk; left; reflexivity|]. split; [exact Hk|]. split; [apply data_plain, Hda|left; exact Hda]. }
    assert (Hsp : forall key, In key special -> In key (reserved k)).
    { intros key Hi. unfold reserved. apply in_or_app. right. apply in_or_app. right. exact Hi. }
    intros key w Hi. destruct (Hi3 key w Hi) as [Hx|[v [Hx Hw]]].
    - destruct (Ha3 key w Hx) as [[Hy|[]]|[v [Hy Hw]]]; [left; injection Hy as <- <-; auto|].
      apply filter_In in Hy. destruct Hy as [Hy _]. destruct (Hasp _ _ Hy) as [H1 H2]. right. apply (Hd key v w H1); [|exact Hw]. auto.
    - right. apply in_app_or in Hx. destruct Hx as [Hx|Hx].
      + apply (Hd key v w (Htold _ _ Hx)); [|exact Hw]. apply wanted_In in Hx. destruct Hx as [Hx _]. apply (declared_special _ _ Hx).
      + apply Hgvin in Hx. destruct Hx as [Hx Hn]. destruct (Hgiven _ _ Hx) as [Hk Hp]. destruct (Hp Hn) as [Hp' Hy].
        rewrite (dp_plain desc v Hp') in Hw. apply Ok_inj in Hw. subst w.
        split; [intros ->; apply Hk; left; reflexivity|]. split; [exact Hk|]. split; [exact Hp'|]. right. auto. }
  set (kept_items := filter (fun kv : str * val => negb (str_eqb $"fieldtype" (fst kv))) items).
  set (kw := map (fun kv => (fst kv, reread E N (snd kv))) kept_items).
  assert (Hkin : forall key w, In (key, w) kept_items -> In (key, w) items /\ key <> $"fieldtype").
  { intros key w Hi. apply filter_In in Hi. destruct Hi as [H1 H2]. split; [exact H1|]. cbn [fst] in H2.
    destruct (str_eqb_spec $"fieldtype" key) as [<-|Hn]; [discriminate|congruence]. }
  assert (Hft : aget $"fieldtype" items = Some (VStr (kind_type k))).
  { rewrite Hi2. destruct (aget $"fieldtype" (wd ++ gv)) as [v|] eqn:Hg.
    - exfalso. apply aget_In, in_app_or in Hg. destruct Hg as [Hg|Hg].
      + apply wanted_In in Hg. destruct Hg as [Hg _]. apply (declared_special _ _ Hg). left. reflexivity.
      + apply Hgvin in Hg. destruct Hg as [Hg _]. destruct (Hgiven _ _ Hg) as [Hk _]. apply Hk. left. reflexivity.
    - rewrite Ha2; [reflexivity|]. intros Hi. apply in_map_iff in Hi. destruct Hi as [[key v] [Hk Hi]]. cbn in Hk. subst key.
      apply filter_In in Hi. destruct Hi as [Hi _]. destruct (Hasp _ _ Hi) as [_ Hr]. apply Hr. unfold reserved.
      apply in_or_app. right. apply in_or_app. right. left. reflexivity. }
  assert (Hcs : forall s, In s special -> s <> $"fieldtype" -> ~ In s (map fst items)).
  { intros s Hs Hn Hi. apply in_map_iff in Hi. destruct Hi as [[key w] [Hk Hi]]. cbn in Hk. subst key.
    destruct (Hentry _ _ Hi) as [[Hx _]|[_ [Hx _]]]; contradiction. }
  assert (Hcp : forall key w, In (key, w) kept_items -> cp E N w = Ok (reread E N w)).
  { intros key w Hi. apply Hkin in Hi. destruct Hi as [Hi Hn]. destruct (Hentry _ _ Hi) as [[Hx _]|[_ [_ [_ Hx]]]]; [contradiction|].
    unfold reread. destruct Hx as [Hx|[_ [y Hy]]]; [rewrite (cp_data E N w Hx); reflexivity|rewrite Hy; reflexivity]. }
  exists items, kw. split; [|split; [|split; [|split]]].
  - unfold describe_items. fold decl. fold (wanted (parameter_value E p k) (map fst given) decl).
    fold wd. fold gv. fold asp. rewrite put_all_app, Ha1. exact Hi1.
  - cbn. unfold strs. rewrite forallb_forall. intros x Hx. apply in_map_iff in Hx. destruct Hx as [[key w] [<- Hx]]. cbn [snd].
    destruct (Hentry _ _ Hx) as [[_ ->]|[_ [_ [Hp _]]]]; [reflexivity|exact Hp].
  - apply cp_field; [rewrite Hft, kind_type_cls; reflexivity|apply Hcs; [right; left; reflexivity|discriminate]
      |apply Hcs; [right; right; left; reflexivity|discriminate]|].
    fold kept_items. unfold kw. clear -Hcp. induction kept_items as [|[a b] l IH]; cbn [map]; constructor.
    + cbn [fst snd]. split; [reflexivity|]. apply (Hcp a). left. reflexivity.
    + apply IH. intros key w Hi. apply (Hcp key). right. exact Hi.
  - intros key Hr Hn.
    assert (Hak : aget key kw = option_map (reread E N) (aget key items)).
    { unfold kw, kept_items. clear -Hn. induction items as [|[a b] l IH]; [reflexivity|]. cbn [filter fst aget].
      destruct (str_eqb_spec $"fieldtype" a) as [<-|Ha]; cbn [negb].
      - destruct (str_eqb_spec key $"fieldtype"); [contradiction|exact IH].
      - cbn [map aget fst snd]. destruct (str_eqb key a); [reflexivity|exact IH]. }
    rewrite Hak, Hi2.
    assert (Ha1k : aget key a1 = None).
    { rewrite Ha2; [cbn [aget]; destruct (str_eqb_spec key $"fieldtype"); [contradiction|reflexivity]|].
      intros Hi. apply in_map_iff in Hi. destruct Hi as [[s v] [Hk Hi]]. cbn in Hk. subst s. apply filter_In in Hi.
      destruct Hi as [Hi _]. destruct (Hasp _ _ Hi) as [_ Hx]. contradiction. }
    rewrite Ha1k, aget_app. unfold wd. rewrite wanted_get by apply declared_NoDup. fold decl.
    assert (Hgget : aget key gv = match aget key given with Some w => if is_none w then None else Some w | None => None end).
    { unfold gv. clear -Hng. induction given as [|[a b] l IH]; [reflexivity|]. inversion Hng as [|? ? Ha Hl]; subst.
      cbn [filter fst snd aget]. destruct (is_none b) eqn:Hb.
      - change (false || negb true) with false. cbv iota. rewrite IH by exact Hl. destruct (str_eqb_spec key a) as [-> |]; [|reflexivity]. rewrite Hb.
        destruct (aget a l) eqn:Hg; [|reflexivity]. apply aget_In in Hg. apply (in_map fst) in Hg. contradiction.
      - change (false || negb false) with true. cbv iota. cbn [aget]. destruct (str_eqb key a); [rewrite Hb; reflexivity|apply IH, Hl]. }
    rewrite Hgget.
    destruct (aget key given) as [w|] eqn:Hg.
    + assert (Hm : smem key (map fst given) = true) by (apply smem_In; apply aget_In in Hg; apply (in_map fst) in Hg; exact Hg).
      rewrite Hm. replace (match aget key decl with Some _ => None | None => None end) with (@None val) by (destruct (aget key decl); reflexivity).
      destruct (is_none w) eqn:Hw; [reflexivity|]. apply aget_In in Hg. destruct (Hgiven _ _ Hg) as [_ Hp]. destruct (Hp Hw) as [Hp' _].
      rewrite (dp_plain desc w Hp'). reflexivity.
    + assert (Hm : smem key (map fst given) = false).
      { apply smem_false, aget_None, Hg. }
      rewrite Hm. destruct (aget key decl) as [d|] eqn:Hd; [|reflexivity]. cbv zeta.
      destruct (is_none (parameter_value E p k key) || is_same (parameter_value E p k key) d); [reflexivity|].
      assert (Htv : told (parameter_value E p k key)).
      { apply Hdecl; [|apply smem_false, Hm]. apply aget_In in Hd. apply (in_map fst) in Hd. exact Hd. }
      rewrite (dp_told desc _ Htv). destruct (data (parameter_value E p k key)) eqn:Hda; [|reflexivity]. cbn [option_map].
      unfold reread. rewrite cp_data by exact Hda. reflexivity.
  - intros key w Hi. unfold kw in Hi. apply in_map_iff in Hi. destruct Hi as [[s v] [Hk Hi]]. cbn [fst snd] in Hk. injection Hk as <- <-.
    apply Hkin in Hi. destruct Hi as [Hi Hn]. destruct (Hentry _ _ Hi) as [[Hx _]|[_ [Hx [_ Hy]]]]; [contradiction|].
    split; [intros ->; apply Hx; right; right; right; left; reflexivity|]. destruct Hy as [Hy|[Hy _]].
    + right. unfold reread. rewrite cp_data by exact Hy. apply data_fieldless, Hy.
    + left. apply (in_map fst) in Hy. exact Hy.
Qed.

(** ** What a description drops *)

Lemma undescribed_bare p k : undescribed_params (bare p) k = bare (undescribed_params p k).
Proof. destruct p; reflexivity. Qed.
Lemma own_default_kmap (g : field -> field) (k : kind) : own_default (kmap g k) = own_default k.
Proof. destruct k; reflexivity. Qed.
Lemma undescribed_params_kmap p (g : field -> field) (k : kind) : undescribed_params p (kmap g k) = undescribed_params p k.
Proof. unfold undescribed_params. rewrite own_default_kmap. reflexivity. Qed.
Lemma undescribed_kind_kmap (g : field -> field) (k : kind) : undescribed_kind (kmap g k) = kmap g (undescribed_kind k).
Proof. destruct k; reflexivity. Qed.
Lemma undescribed_sub (k : kind) : subfields (undescribed_kind k) = subfields k.
Proof. destruct k; reflexivity. Qed.
Lemma undescribed_cls (k : kind) : cls_of (undescribed_kind (kmap undescribed k)) = cls_of k.
Proof. destruct k; reflexivity. Qed.

Lemma sdef_both (g h g' h' : field -> field) (d : sdefP val field) :
  (forall f, In f (sdef_fields d) -> g (h f) = g' (h' f)) -> sdef_map g (sdef_map h d) = sdef_map g' (sdef_map h' d).
Proof.
  assert (Hl : forall l : list (str * field), (forall f, In f (map snd l) -> g (h f) = g' (h' f)) ->
    map (fun kf => (fst kf, g (snd kf))) (map (fun kf => (fst kf, h (snd kf))) l)
    = map (fun kf => (fst kf, g' (snd kf))) (map (fun kf => (fst kf, h' (snd kf))) l)).
  { intros l H. rewrite !map_map. apply map_ext_in. intros [s f] Hi. cbn. rewrite H; [reflexivity|]. apply (in_map snd) in Hi. exact Hi. }
  destruct d as [l|on vs]; cbn; intros H; f_equal.
  - apply Hl, H.
  - apply H. left. reflexivity.
  - rewrite !map_map. apply map_ext_in. intros [i l] Hi. cbn [fst snd]. f_equal. apply Hl.
    intros f Hf. apply H. right. apply in_flat_map. exists (i, l). split; [exact Hi|exact Hf].
Qed.

Lemma kmap_both (g h g' h' : field -> field) (k : kind) : (forall f, In f (subfields k) -> g (h f) = g' (h' f)) ->
  kmap g (kmap h k) = kmap g' (kmap h' k).
Proof.
  intros H. destruct k as [ | | | | | | | | | | | |value [key|] rk| |item a b u|d s o| | | | |l|l| ]; cbn in *; try reflexivity.
  - rewrite !H by auto. reflexivity.
  - rewrite !H by auto. reflexivity.
  - rewrite !H by auto. reflexivity.
  - rewrite (sdef_both g h g' h' d H). reflexivity.
  - rewrite !map_map. f_equal. apply map_ext_in. exact H.
  - rewrite !map_map. f_equal. apply map_ext_in. exact H.
Qed.

Lemma undocumented_undescribed f : undocumented (undescribed f) = undescribed (undocumented f).
Proof.
  induction f as [i|p k IH] using field_ind'; [reflexivity|]. cbn [undescribed undocumented].
  rewrite undescribed_params_kmap, undescribed_bare, <- !undescribed_kind_kmap. f_equal. f_equal.
  apply kmap_both. intros g Hg. apply IH, Hg.
Qed.

Lemma undescribed_alike f g : alike f g -> alike (undescribed f) (undescribed g).
Proof. unfold alike. rewrite !undocumented_undescribed. congruence. Qed.

Lemma within_undescribed n : forall f, within n f -> within n (undescribed f).
Proof.
  induction n as [|n IH]; intros f H; [contradiction|]. destruct f as [i|p k]; [exact I|]. cbn [undescribed within].
  rewrite undescribed_sub, subfields_kmap. intros g Hg. apply in_map_iff in Hg. destruct Hg as [h [<- Hh]]. apply IH, H, Hh.
Qed.

Definition und (kf : str * field) : str * field := (fst kf, undescribed (snd kf)).

Lemma und_names l : Forall has_name l -> Forall has_name (map und l).
Proof.
  induction l as [|[s f] l IH]; intros H; [constructor|]. inversion H as [|? ? H1 H2]; subst. cbn. constructor; [|apply IH, H2].
  destruct f as [i|p k]; exact H1.
Qed.

Lemma und_get s l f : aget s l = Some f -> aget s (map und l) = Some (undescribed f).
Proof.
  induction l as [|[x g] l IH]; cbn; [discriminate|]. destruct (str_eqb s x); [|exact IH]. intros H. injection H as <-. reflexivity.
Qed.

Lemma constructed_undescribed E k : constructed_kind E k -> describable_kind E k ->
  constructed_kind E (undescribed_kind (kmap undescribed k)).
Proof.
  intros Hk Hd.
  destruct k as [ |mn mx| |mn mx|mn mx utc|mn mx|vf|mu ex mn mx|l ig| |mn mx|mn mx|value key rk| |item mn mx u|d s o|vs
                 |pat mn mx st|mn mx|sg|l|l| ]; cbn [kmap undescribed_kind constructed_kind] in *; try exact Hk.
  - destruct Hk as [Hk _]. split; [exact Hk|discriminate].
  - split; [discriminate|]. destruct Hk as [_ Hk]. destruct d as [l|on vs]; cbn [sdef_map] in *.
    + apply (und_names l Hk).
    + destruct Hk as [q [kd [name [-> [Hn [Hr HF]]]]]].
      exists (undescribed_params q kd), (undescribed_kind (kmap undescribed kd)), name.
      split; [reflexivity|]. split; [exact Hn|]. split; [exact Hr|]. rewrite Forall_forall in *.
      intros vd Hi. apply in_map_iff in Hi. destruct Hi as [[i l] [<- Hi]]. cbn [fst snd].
      destruct (HF _ Hi) as [H1 [H2 [H3 [c [Hc Ha]]]]]. cbn [fst snd] in *. split; [exact H1|]. split; [exact H2|].
      split; [apply (und_names l H3)|]. exists (undescribed c). split; [apply (und_get name l c Hc)|].
      apply undescribed_alike in Ha. apply (alike_trans _ _ _ Ha). destruct Hd as [Hd _].
      destruct (Hd _ Hi) as [Hda _]. cbn [fst] in Hda. unfold alike. cbn [undescribed undocumented].
      replace (undescribed_params (with_constant q i) kd) with (with_constant (undescribed_params q kd) i); [reflexivity|].
      unfold with_constant, undescribed_params, kept. cbn [p_name p_nonnull p_required p_ignore_null p_default p_constant p_title p_description p_notes p_aspects]. rewrite Hda. reflexivity.
  - intros He. apply map_eq_nil in He. contradiction.
  - intros He. apply map_eq_nil in He. contradiction.
Qed.

(** ** Describing what is nested *)

Section Nested.
Context (E : env) (N : nat) (dsc : field -> res val).

Definition tells (h : field) : Prop :=
  exists w g, dsc h = Ok w /\ plainv w = true /\ is_none w = false /\ cp E N w = Ok (VField g)
              /\ alike g (undescribed h) /\ sound E g.

Lemma tells_list l : (forall h, In h l -> tells h) ->
  exists ws gs, each dsc l = Ok ws /\ forallb plainv ws = true /\ each (cp E N) ws = Ok (map VField gs)
    /\ map undocumented gs = map undocumented (map undescribed l) /\ forall g, In g gs -> sound E g.
Proof.
  induction l as [|h l IH]; intros H; [exists [], []; repeat (split; [reflexivity|]); try (split; [intros ? []|]; repeat (split; [reflexivity|])); intros ? []|].
  destruct (H h) as [w [g [H1 [H2 [_ [H3 [H4 H5]]]]]]]; [left; reflexivity|].
  destruct IH as [ws [gs [I1 [I2 [I3 [I4 I5]]]]]]; [intros; apply H; right; assumption|].
  exists (w :: ws), (g :: gs). cbn [each map forallb]. rewrite H1, H2, H3. cbn [bind]. rewrite I1, I2, I3. cbn [bind].
  repeat (split; [reflexivity|]). split; [f_equal; [exact H4|exact I4]|]. intros x [<-|Hx]; auto.
Qed.

Lemma tells_struct l : (forall h, In h (map snd l) -> tells h) -> unambiguous l ->
  exists w l', describe_structure dsc l = Ok w /\ plainv w = true /\ is_none w = false
    /\ cp E N w = Ok (struct_val l') /\ map uf l' = map uf (map und l) /\ forall g, In g (map snd l') -> sound E g.
Proof.
  intros H Hu.
  assert (Hx : exists ws l', each (fun kf => do d <- dsc (snd kf); Ok (VStr (fst kf), d)) l = Ok ws
    /\ forallb (fun kv : val * val => plainv (snd kv)) ws = true
    /\ (forall kv, In kv ws -> is_fieldtype (fst kv) = false)
    /\ each (fun kv => do w <- cp E N (snd kv); Ok (fst kv, w)) ws = Ok (map (fun kf => (VStr (fst kf), VField (snd kf))) l')
    /\ map uf l' = map uf (map und l) /\ forall g, In g (map snd l') -> sound E g).
  { induction l as [|[s h] l IH]; [exists [], []; repeat (split; [reflexivity|]); try (split; [intros ? []|]; repeat (split; [reflexivity|])); intros ? []|].
    destruct (H h) as [w [g [H1 [H2 [_ [H3 [H4 H5]]]]]]]; [left; reflexivity|].
    destruct IH as [ws [gs [I1 [I2 [I3 [I4 [I5 I6]]]]]]]; [intros; apply H; right; assumption|intros x f Hi; apply (Hu x f); right; exact Hi|].
    exists ((VStr s, w) :: ws), ((s, g) :: gs). cbn [each fst snd forallb]. rewrite H1, H2. cbn [bind]. rewrite I1. cbn [bind fst snd].
    rewrite H3. cbn [bind]. rewrite I4, I2. cbn [bind]. repeat (split; [reflexivity|]). split.
    { intros kv [<-|Hi]; [|auto]. cbn [fst is_fieldtype]. destruct (str_eqb_spec $"fieldtype" s) as [<-|]; [|reflexivity].
      exfalso. apply (Hu _ h (or_introl eq_refl)). reflexivity. }
    cbn [map fst snd]. split; [reflexivity|]. split; [unfold uf at 1 3, und at 1; cbn [fst snd]; f_equal; [f_equal; exact H4|exact I5]|].
    intros x [<-|Hx]; auto. }
  destruct Hx as [ws [l' [I1 [I2 [I3 [I4 [I5 I6]]]]]]]. exists (VDict false ws), l'. unfold describe_structure. rewrite I1. cbn [bind].
  split; [reflexivity|]. split; [exact I2|]. split; [reflexivity|]. split; [rewrite (cp_dict E N false ws I3), I4; reflexivity|]. auto.
Qed.

Lemma dset_fresh L k v l : (forall x y, In (x, y) l -> veq L x k = false) -> dset L k v l = l ++ [(k, v)].
Proof.
  induction l as [|[a b] l IH]; intros H; [reflexivity|]. cbn. rewrite (H a b (or_introl eq_refl)). f_equal. apply IH.
  intros x y Hi. apply (H x y). right. exact Hi.
Qed.

Lemma dset_all L (vs : list (val * val)) : forall acc,
  ForallOrdPairs (fun a b : val * val => veq L (fst a) (fst b) = false) (acc ++ vs) ->
  fold_left (fun a x => dset L (fst x) (snd x) a) vs acc = acc ++ vs.
Proof.
  induction vs as [|[k v] vs IH]; intros acc H; cbn [fold_left fst snd]; [rewrite app_nil_r; reflexivity|].
  rewrite dset_fresh.
  - rewrite IH; rewrite <- app_assoc; [reflexivity|exact H].
  - intros x y Hi. clear -H Hi. induction acc as [|[a b] l IHl]; [contradiction|]. cbn in H. inversion H as [|? ? Hf Ho]; subst.
    destruct Hi as [Hi|Hi]; [|apply IHl; assumption]. injection Hi as -> ->. rewrite Forall_forall in Hf.
    apply (Hf (k, v)). apply in_or_app. right. left. reflexivity.
Qed.

Definition undv (vl : val * list (str * field)) := (fst vl, map und (snd vl)).

Lemma tells_variants desc on vs : (forall h, In h (flat_map (fun vl => map snd (snd vl)) vs) -> tells h) ->
  (forall vd, In vd vs -> fst vd <> VStr $"fieldtype" /\ unambiguous (snd vd) /\ slot_serialize E desc on (fst vd) = Ok (fst vd)) ->
  ForallOrdPairs (fun a b => veq (e_local E) (fst a) (fst b) = false) vs ->
  exists ws vs', each (fun vl => do i <- slot_serialize E desc on (fst vl); do d <- describe_structure dsc (snd vl); Ok (i, d)) vs = Ok ws
    /\ let w := VDict false (fold_left (fun a x => dset (e_local E) (fst x) (snd x) a) ws []) in
       plainv w = true /\ cp E N w = Ok (VDict false (map (fun vl => (fst vl, struct_val (snd vl))) vs'))
       /\ map uv vs' = map uv (map undv vs)
       /\ forall g, In g (flat_map (fun vl => map snd (snd vl)) vs') -> sound E g.
Proof.
  intros H Hv Ho.
  assert (Hx : exists ws vs', each (fun vl => do i <- slot_serialize E desc on (fst vl); do d <- describe_structure dsc (snd vl); Ok (i, d)) vs = Ok ws
    /\ map fst ws = map fst vs
    /\ forallb (fun kv : val * val => plainv (snd kv)) ws = true
    /\ (forall kv, In kv ws -> is_fieldtype (fst kv) = false)
    /\ each (fun kv => do w <- cp E N (snd kv); Ok (fst kv, w)) ws = Ok (map (fun vl => (fst vl, struct_val (snd vl))) vs')
    /\ map uv vs' = map uv (map undv vs)
    /\ forall g, In g (flat_map (fun vl => map snd (snd vl)) vs') -> sound E g).
  { clear Ho. induction vs as [|[i l] vs IH]; [exists [], []; repeat (split; [reflexivity|]); try (split; [intros ? []|]; repeat (split; [reflexivity|])); intros ? []|].
    destruct (Hv (i, l) (or_introl eq_refl)) as [Hi [Hu Hs]]. cbn [fst snd] in *.
    destruct (tells_struct l) as [w [l' [H1 [H2 [_ [H3 [H4 H5]]]]]]]; [intros h Hh; apply H; cbn; apply in_or_app; auto|exact Hu|].
    destruct IH as [ws [gs [I1 [I0 [I2 [I3 [I4 [I5 I6]]]]]]]]; [intros h Hh; apply H; cbn; apply in_or_app; auto|intros vd Hd; apply Hv; right; exact Hd|].
    exists ((i, w) :: ws), ((i, l') :: gs). cbn [each fst snd forallb]. rewrite Hs. cbn [bind]. rewrite H1, H2. cbn [bind]. rewrite I1. cbn [bind fst snd].
    rewrite H3. cbn [bind]. rewrite I4, I2. cbn [bind map fst snd]. rewrite I0. repeat (split; [reflexivity|]). split.
    { intros kv [<-|Hk]; [|auto]. cbn [fst]. destruct i; try reflexivity. cbn [is_fieldtype].
      destruct (str_eqb_spec $"fieldtype" s) as [<-|]; [contradiction Hi; reflexivity|reflexivity]. }
    split; [reflexivity|]. split; [unfold uv at 1 3, undv at 1; cbn [fst snd]; f_equal; [f_equal; exact H4|exact I5]|].
    intros x Hx. cbn in Hx. apply in_app_or in Hx. destruct Hx; auto. }
  destruct Hx as [ws [vs' [I1 [I0 [I2 [I3 [I4 [I5 I6]]]]]]]]. exists ws, vs'. split; [exact I1|]. cbv zeta.
  assert (Hd : ForallOrdPairs (fun a b : val * val => veq (e_local E) (fst a) (fst b) = false) ws).
  { clear -I0 Ho. revert ws I0. induction Ho as [|a l Hf Ho IH]; intros [|b ws] I0; try discriminate; constructor.
    - cbn in I0. injection I0 as Hb I0. rewrite Hb. rewrite Forall_forall in *. intros x Hx.
      apply (in_map fst) in Hx. rewrite I0 in Hx. apply in_map_iff in Hx. destruct Hx as [y [Hy Hx]]. rewrite <- Hy. apply Hf, Hx.
    - apply IH. cbn in I0. injection I0 as _ I0. exact I0. }
  rewrite (dset_all _ ws []) by exact Hd. cbn [app].
  split; [exact I2|]. split; [rewrite (cp_dict E N false ws I3), I4; reflexivity|]. auto.
Qed.

End Nested.

(** ** One field *)

Lemma pv_kind E p k key : smem key base_args = false -> key <> $"structural" ->
  parameter_value E p k key = arg key (kind_attrs E k).
Proof.
  intros Hb Hs. unfold parameter_value. destruct (str_eqb_spec key $"structural") as [|_]; [contradiction|].
  unfold arg. f_equal. f_equal. unfold attrs. rewrite aget_app.
  set (base := _ :: _) at 1.
  assert (Hn : aget key base = None).
  { apply aget_None. unfold base. cbn [map fst]. intros Hi. apply smem_false in Hb. apply Hb. cbn [base_args In] in *. tauto. }
  rewrite Hn, aget_app. destruct (p_preprocessor p); [|reflexivity]. cbn [aget].
  destruct (str_eqb_spec key $"preprocessor") as [-> |]; [discriminate|reflexivity].
Qed.

Lemma data_opt {A} (f : A -> val) o : (forall a, data (f a) = true) -> data (opt f o) = true.
Proof. destruct o; cbn; auto. Qed.
Lemma data_strs l : forallb data (map VStr l) = true.
Proof. induction l; auto. Qed.

Lemma declared_told E p k key : describable_params E p k -> describable_kind E k ->
  In key (map fst (base_parameters ++ class_parameters (cls_of k))) -> (key = $"default" -> own_default k = false) ->
  told (parameter_value E p k key).
Proof.
  intros [Hc [Ht [Hd [Hno [Hdef _]]]]] Hk Hi Hown. rewrite map_app in Hi. apply in_app_or in Hi. destruct Hi as [Hi|Hi].
  - cbn [base_parameters map fst In] in Hi.
    repeat (destruct Hi as [<-|Hi]; [|]); try contradiction; try assumption; try (left; reflexivity).
    + left. apply data_opt. reflexivity.
    + unfold describable_default in Hdef. rewrite (Hown eq_refl) in Hdef. exact Hdef.
  - assert (Hb : smem key base_args = false /\ key <> $"structural").
    { revert key Hi Hown. apply (Forall_forall (fun key => (key = $"default" -> own_default k = false) -> smem key base_args = false /\ key <> $"structural")).
      destruct k; repeat (constructor; [intros _; split; [reflexivity|discriminate]|]); constructor. }
    rewrite pv_kind by apply Hb. clear Hb Hown.
    destruct k as [ |mn mx| |mn mx|mn mx utc|mn mx|vf|mu ex mn mx|l ig| |mn mx|mn mx|value kf rk| |item mn mx u|d s o|vs
                 |pat mn mx st|mn mx|sg|l|l| ]; cbn [cls_of class_parameters map fst In] in Hi; cbn [describable_kind] in Hk;
    repeat (destruct Hi as [<-|Hi]; [|]); try contradiction; cbn;
    try (left; reflexivity);
    try (match goal with |- told (opt ?f ?o) => destruct o; cbn; first [left; reflexivity | right; reflexivity | left; cbn; apply data_strs] end).
    + left. exact Hk.
    + left. destruct rk as [r|]; [|reflexivity]. apply (Hk r eq_refl).
Qed.

Definition looks (E : env) (N : nat) (p : params) (k : kind) (given kw : list (str * val)) : Prop :=
  forall key, In key (reserved k) -> key <> $"fieldtype" ->
    aget key kw = match aget key given with
                  | Some w => if is_none w then None else Some (reread E N w)
                  | None => match aget key (base_parameters ++ class_parameters (cls_of k)) with
                            | Some d => let v := parameter_value E p k key in
                                        if is_none v || is_same v d then None
                                        else if data v then Some v else None
                            | None => None
                            end
                  end.

Definition kept_params (p : params) (k : kind) : params :=
  {| p_name := p_name p; p_nonnull := p_nonnull p; p_required := p_required p;
     p_ignore_null := p_ignore_null p; p_default := p_default (undescribed_params p k);
     p_constant := kept (p_constant p);
     p_preprocessor := None; p_extractor := None; p_instantiator := None;
     p_title := kept (p_title p); p_description := kept (p_description p); p_notes := kept (p_notes p);
     p_aspects := [] |}.

Lemma base_reserved k key : smem key base_args = true -> In key (reserved k) /\ key <> $"fieldtype".
Proof.
  intros H. split; [unfold reserved; apply in_or_app; left; apply smem_In, H|]. intros ->. discriminate.
Qed.
Lemma class_reserved k key : smem key (class_args (cls_of k)) = true -> In key (reserved k) /\ key <> $"fieldtype".
Proof.
  intros H. split; [unfold reserved; apply in_or_app; right; apply in_or_app; left; apply smem_In, H|].
  intros ->. destruct k; discriminate.
Qed.

Lemma arg_kept E p k key d : parameter_value E p k key = d ->
  match (let v := parameter_value E p k key in
         if is_none v || is_same v VNone then None else if data v then Some v else None) with
  | Some v => v | None => VNone end = kept d.
Proof. intros ->. cbv zeta. unfold kept. destruct d; try reflexivity; cbn; match goal with |- context [if ?b then _ else _] => destruct b end; reflexivity. Qed.

Lemma class_not_base c key : In key (map fst (class_parameters c)) -> smem key base_args = false.
Proof.
  revert key. apply (Forall_forall (fun key => smem key base_args = false)). destruct c; repeat (constructor; [reflexivity|]); constructor.
Qed.

Lemma described_base E N p k given kw : looks E N p k given kw ->
  (forall key, smem key base_args = true -> key <> $"default" -> aget key given = None) ->
  arg $"default" kw = p_default (undescribed_params p k) ->
  Forall (fun kv => fst kv <> []) kw -> base_ok E kw (kept_params p k).
Proof.
  intros HL Hg Hd Hk.
  assert (HL' : forall key, smem key base_args = true -> key <> $"default" ->
     aget key kw = match aget key base_parameters with
                            | Some d => let v := parameter_value E p k key in
                                        if is_none v || is_same v d then None
                                        else if data v then Some v else None
                            | None => None
                            end).
  { intros key Hb Hn. destruct (base_reserved k key Hb) as [H1 H2]. rewrite (HL key H1 H2), (Hg key Hb Hn), aget_app.
    destruct (aget key base_parameters) eqn:Hx; [reflexivity|].
    destruct (aget key (class_parameters (cls_of k))) eqn:Hy; [|reflexivity]. exfalso. apply aget_In, (in_map fst) in Hy. cbn [fst] in Hy.
    apply class_not_base in Hy. congruence. }
  assert (Hkept : forall key, smem key base_args = true -> key <> $"default" -> aget key base_parameters = Some VNone ->
            arg key kw = kept (parameter_value E p k key)).
  { intros key H1 H2 H3. unfold arg. rewrite (HL' key H1 H2), H3. apply arg_kept. reflexivity. }
  assert (Hflag : forall key b, smem key base_args = true -> key <> $"default" -> aget key base_parameters = Some (VBool false) ->
            parameter_value E p k key = VBool b -> flag key kw = b).
  { intros key b H1 H2 H3 H4. unfold flag, arg. rewrite (HL' key H1 H2), H3, H4. destruct b; reflexivity. }
  assert (Hnone : forall key, smem key base_args = true -> key <> $"default" -> aget key base_parameters = None -> arg key kw = VNone).
  { intros key H1 H2 H3. unfold arg. rewrite (HL' key H1 H2), H3. reflexivity. }
  constructor; cbn [kept_params p_name p_nonnull p_required p_ignore_null p_default p_constant p_instantiator p_extractor
                    p_preprocessor p_title p_description p_notes];
    try (apply Hflag; [reflexivity|discriminate|reflexivity|reflexivity]);
    try (apply Hkept; [reflexivity|discriminate|reflexivity]).
  - rewrite Hkept; [|reflexivity|discriminate|reflexivity]. change (parameter_value E p k $"name") with (opt VStr (p_name p)).
    destruct (p_name p); reflexivity.
  - unfold flag. rewrite Hnone; [reflexivity|reflexivity|discriminate|reflexivity].
  - exact Hd.
  - rewrite Hnone; [reflexivity|reflexivity|discriminate|reflexivity].
  - rewrite Hnone; [reflexivity|reflexivity|discriminate|reflexivity].
  - rewrite Hnone; [reflexivity|reflexivity|discriminate|reflexivity].
  - left. apply Hnone; [reflexivity|discriminate|reflexivity].
  - exact Hk.
Qed.

Lemma describe_finish E N desc p k given :
  describable_params E p k -> describable_kind E k -> constructed_kind E k ->
  NoDup (map fst given) ->
  (forall key w, In (key, w) given ->
     (smem key (class_args (cls_of k)) = true /\ smem key base_args = false \/ key = $"default")
     /\ (is_none w = false -> plainv w = true /\ exists y, cp E N w = Ok y)) ->
  aget $"default" given
    = (if own_default k then Some (if truthy (p_default p) then p_default p else VNone) else None) ->
  (forall kw, looks E N p k given kw ->
     exists k2, kind_ok E (clone E N) kw k2 /\ kalike k2 (undescribed_kind (kmap undescribed k)) /\ cls_of k2 = cls_of k
                /\ forall g, In g (subfields k2) -> sound E g) ->
  exists items g, describe_items E desc false p k given = Ok items /\ plainv (VDict false (strs items)) = true
    /\ cp E N (VDict false (strs items)) = Ok (VField g) /\ alike g (undescribed (Fld p k)) /\ sound E g.
Proof.
  intros Hp Hk Hck Hnd Hgiven Hdef Hkind.
  assert (Hgk : forall key, In key (map fst given) ->
            smem key (class_args (cls_of k)) = true /\ smem key base_args = false \/ key = $"default").
  { intros key Hi. apply in_map_iff in Hi. destruct Hi as [[s w] [<- Hi]]. apply (Hgiven s w Hi). }
  assert (Hcb : forall key, smem key (class_args (cls_of k)) = true -> ~ In key special).
  { intros key H Hi. unfold special in Hi. cbn [In] in Hi. destruct Hi as [<-|[<-|[<-|[<-|[]]]]]; destruct k; discriminate. }
  destruct (described_kw E N desc p k given Hnd) as [items [kw [H1 [H2 [H3 [H4 H5]]]]]].
  { intros key w Hi. destruct (Hgiven key w Hi) as [Hx Hy]. split; [|exact Hy]. destruct Hx as [[Hx _]| ->]; [apply Hcb, Hx|].
    unfold special. cbn [In]. intros Hs. repeat (destruct Hs as [Hs|Hs]; [discriminate|]). contradiction. }
  { intros key Hi Hn. apply declared_told; auto. intros ->. apply aget_None in Hn. rewrite Hdef in Hn.
    destruct (own_default k); [discriminate|reflexivity]. }
  { apply Hp. }
  assert (HL : looks E N p k given kw) by exact H4.
  destruct (Hkind kw HL) as [k2 [Hok [Hka [Hcls Hsub]]]].
  assert (Hd : arg $"default" kw = p_default (undescribed_params p k)).
  { unfold arg. destruct (base_reserved k $"default" eq_refl) as [Hr1 Hr2]. rewrite (HL _ Hr1 Hr2), Hdef.
    cbn [undescribed_params p_default]. destruct (own_default k) eqn:Ho.
    - destruct (is_none (if truthy (p_default p) then p_default p else VNone)) eqn:Hn;
        [destruct (if truthy (p_default p) then p_default p else VNone); try discriminate; reflexivity|].
      unfold reread. rewrite cp_data; [reflexivity|].
      destruct (truthy (p_default p)) eqn:Ht; [|reflexivity]. destruct Hp as [_ [_ [_ [_ [Hp _]]]]]. unfold describable_default in Hp.
      rewrite Ho in Hp. destruct Hp as [Hp|[Hp _]]; [congruence|exact Hp].
    - change (aget $"default" (base_parameters ++ class_parameters (cls_of k))) with (Some VNone). cbv iota.
      apply arg_kept. reflexivity. }
  assert (Hb : base_ok E kw (kept_params p k)).
  { apply (described_base E N p k given kw HL); [| |].
    - intros key Hb Hn. apply aget_None. intros Hi. apply Hgk in Hi. destruct Hi as [[_ Hi]|Hi]; [congruence|contradiction].
    - exact Hd.
    - rewrite Forall_forall. intros [key w] Hi. apply (H5 key w Hi). }
  destruct (init_ok E (clone E N) kw (kept_params p k) k2 Hb Hok) as [p' [Hi [[Ht [Hdd [Hno Hbare]]] Hasp]]].
  rewrite Hcls in Hi, Hasp. exists items, (Fld p' k2). split; [exact H1|]. split; [exact H2|]. split; [rewrite H3, Hi; reflexivity|].
  split; [apply alike_Fld; split; [rewrite Hbare; reflexivity|exact Hka]|].
  apply sound_Fld. split; [|split; [apply (constructed_kind_alike E _ _ Hka), constructed_undescribed; assumption|exact Hsub]].
  destruct Hp as [Hp1 [Hp2 [Hp3 [Hp4 _]]]].
  unfold constructed_params. rewrite Ht, Hdd, Hno. cbn [kept_params p_title p_description p_notes].
  split; [apply (f_equal p_constant) in Hbare; cbn [p_constant bare kept_params] in Hbare; rewrite Hbare; apply told_fieldless, Hp1|].
  split; [apply told_fieldless, Hp2|]. split; [apply told_fieldless, Hp3|]. split; [apply told_fieldless, Hp4|].
  apply Hasp. intros [key w] Hix Hkey. cbn [fst snd] in *. unfold others in Hix. apply filter_In in Hix. destruct Hix as [Hix Hcl].
  cbn [fst] in Hcl. apply Bool.negb_true_iff in Hcl. destruct (H5 key w Hix) as [_ [Hx|Hx]]; [|exact Hx].
  apply Hgk in Hx. destruct Hx as [[Hx _]| ->]; [congruence|]. destruct Hkey; discriminate.
Qed.

Lemma looks_class E N p k given kw key : looks E N p k given kw ->
  smem key (class_args (cls_of k)) = true -> smem key base_args = false -> aget key given = None ->
  aget key kw = match aget key (class_parameters (cls_of k)) with
                | Some d => let v := arg key (kind_attrs E k) in
                            if is_none v || is_same v d then None else if data v then Some v else None
                | None => None
                end.
Proof.
  intros HL Hc Hb Hg. destruct (class_reserved k key Hc) as [H1 H2]. rewrite (HL key H1 H2), Hg, aget_app.
  assert (Hs : key <> $"structural") by (intros ->; destruct k; discriminate).
  rewrite pv_kind by assumption.
  assert (Hn : aget key base_parameters = None).
  { apply aget_None. intros Hi. apply smem_false in Hb. cbn [base_parameters map fst In] in Hi. cbn [base_args In] in Hb.
    repeat (destruct Hi as [Hi|Hi]; [first [symmetry in Hi; contradiction | apply Hb; subst key; auto 12]|]). contradiction. }
  rewrite Hn. reflexivity.
Qed.

Lemma looks_given E N p k given kw key w : looks E N p k given kw ->
  smem key (class_args (cls_of k)) = true -> aget key given = Some w -> is_none w = false ->
  aget key kw = Some (reread E N w).
Proof.
  intros HL Hc Hg Hw. destruct (class_reserved k key Hc) as [H1 H2]. rewrite (HL key H1 H2), Hg, Hw. reflexivity.
Qed.

(** Bounds written as texts. *)
Lemma bound_In {A} key (text : A -> str) o x : In x (bound key text o) -> exists s, x = (key, VStr s).
Proof. destruct o as [a|]; [|contradiction]. intros [<-|[]]. eauto. Qed.

Lemma bounds_get {A} (text : A -> str) (mn mx : option A) :
  aget $"maximum" (bound $"maximum" text mx ++ bound $"minimum" text mn) = option_map (fun a => VStr (text a)) mx
  /\ aget $"minimum" (bound $"maximum" text mx ++ bound $"minimum" text mn) = option_map (fun a => VStr (text a)) mn
  /\ aget $"utc" (bound $"maximum" text mx ++ bound $"minimum" text mn) = None
  /\ aget $"default" (bound $"maximum" text mx ++ bound $"minimum" text mn) = None
  /\ NoDup (map fst (bound $"maximum" text mx ++ bound $"minimum" text mn)).
Proof.
  destruct mn, mx; repeat split; try (apply nodupb_NoDup; reflexivity).
Qed.

Lemma bounds_given {A} E N (k : kind) (text : A -> str) mn mx :
  smem $"maximum" (class_args (cls_of k)) = true -> smem $"minimum" (class_args (cls_of k)) = true ->
  forall key w, In (key, w) (bound $"maximum" text mx ++ bound $"minimum" text mn) ->
     (smem key (class_args (cls_of k)) = true /\ smem key base_args = false \/ key = $"default")
     /\ (is_none w = false -> plainv w = true /\ exists y, cp E N w = Ok y).
Proof.
  intros H1 H2 key w Hi. apply in_app_or in Hi. destruct Hi as [Hi|Hi]; apply bound_In in Hi; destruct Hi as [s Hi];
    injection Hi as -> ->; (split; [left; split; [assumption|reflexivity]|]); intros _; split; try reflexivity; exists (VStr s); reflexivity.
Qed.

Lemma bound_look {A} E N p k (text : A -> str) (o : option A) given kw key :
  looks E N p k given kw -> smem key (class_args (cls_of k)) = true -> smem key base_args = false ->
  aget key given = option_map (fun a => VStr (text a)) o ->
  (o = None -> arg key (kind_attrs E k) = VNone) ->
  arg key kw = match o with Some a => VStr (text a) | None => VNone end.
Proof.
  intros HL Hc Hb Hg Hk. destruct o as [a|]; cbn in Hg; unfold arg.
  - rewrite (looks_given _ _ _ _ _ _ _ _ HL Hc Hg eq_refl). reflexivity.
  - rewrite (looks_class _ _ _ _ _ _ _ HL Hc Hb Hg). rewrite (Hk eq_refl). destruct (aget key (class_parameters (cls_of k))); reflexivity.
Qed.

(** Structures read their arguments the way a copy does. *)
Lemma kind_ok_transfer E cl kw kw' d s o : kind_ok E cl kw' (KStructure d s o) ->
  arg $"key_order" kw = arg $"key_order" kw' -> flag_on $"strict" kw = flag_on $"strict" kw' ->
  truthy (arg $"generate_default" kw) = false ->
  arg $"polymorphic_on" kw = arg $"polymorphic_on" kw' -> arg $"structure" kw = arg $"structure" kw' ->
  kind_ok E cl kw (KStructure d s o).
Proof.
  cbn [kind_ok]. intros [H1 [H2 [_ H3]]] E1 E2 E3 E4 E5. rewrite E1, E2, E4, E5. auto.
Qed.

Ltac seek HL key :=
  let H := fresh "Hg" in
  assert (H := looks_class _ _ _ _ _ _ key HL eq_refl eq_refl eq_refl); cbv zeta in H.

Lemma default_given E N k d : own_default k = true -> describable_default E k d ->
  let w := if truthy d then d else VNone in is_none w = false -> plainv w = true /\ exists y, cp E N w = Ok y.
Proof.
  unfold describable_default. intros -> H. cbv zeta. destruct (truthy d) eqn:Ht; [|discriminate]. intros _.
  destruct H as [H|[H _]]; [congruence|]. split; [apply data_plain, H|]. exists d. apply cp_data, H.
Qed.

Lemma looks_none E N p k given kw key : looks E N p k given kw ->
  smem key (class_args (cls_of k)) = true -> aget key given = Some VNone -> aget key kw = None.
Proof. intros HL Hc Hg. destruct (class_reserved k key Hc) as [H1 H2]. rewrite (HL key H1 H2), Hg. reflexivity. Qed.

Lemma reread_ok E N w y : cp E N w = Ok y -> reread E N w = y.
Proof. unfold reread. intros ->. reflexivity. Qed.

Lemma fields_list l : l <> [] -> fields_arg (VList (map VField l)) = Ok l.
Proof.
  destruct l as [|f l]; intros H; [contradiction|]. change (each field_arg (map VField (f :: l)) = Ok (f :: l)).
  rewrite each_map. apply each_id. reflexivity.
Qed.

Section Structural.
Context (E : env) (N m : nat) (p : params).
Let desc := describe E m false.
Let proc := fun g v => process_gen E desc (reconstruct E m) m g false Outbound true [] v.

Lemma describe_map value key rk :
  let k := KMap value key rk in
  describable_params E p k -> describable_kind E k -> constructed_kind E k ->
  (forall h, In h (subfields k) -> tells E N desc h) ->
  exists given items g, describe_given E desc desc proc p k = Ok given /\ 
    describe_items E desc false p k given = Ok items /\ plainv (VDict false (strs items)) = true
    /\ cp E N (VDict false (strs items)) = Ok (VField g) /\ alike g (undescribed (Fld p k)) /\ sound E g.
Proof.
  intros k Hdp Hdk Hck Ht.
  destruct (Ht value) as [wv [gv [V1 [V2 [V3 [V4 [V5 V6]]]]]]]; [unfold k; destruct key; left; reflexivity|].
  assert (Hdef : describable_default E k (p_default p)) by apply Hdp.
  set (dflt := if truthy (p_default p) then p_default p else VNone).
  assert (Hdf : (if truthy (p_default p) then
                    match as_dict (p_default p) with
                    | None => py AttributeError
                    | Some l => do l' <- each (fun kv => do w <- proc value (snd kv); Ok (fst kv, w)) l;
                                Ok (VDict false l')
                    end
                  else Ok VNone) = Ok dflt).
  { unfold dflt. destruct (truthy (p_default p)) eqn:Htr; [|reflexivity]. destruct Hdef as [Hf|[_ [l [Hl Hu]]]]; [congruence|].
    rewrite Hl. cbn [as_dict]. rewrite each_id; [reflexivity|]. intros [a x] Hx. cbn [fst snd].
    assert (Hux := Hu _ Hx desc (reconstruct E m) m). cbn [snd] in Hux. unfold proc. rewrite Hux. reflexivity. }
  assert (Hk : exists kd kg, match key with Some kf => do d <- desc kf; Ok [($"key", d)] | None => Ok [] end = Ok kd
    /\ NoDup (map fst ([($"value", wv); ($"default", dflt)] ++ kd))
    /\ (forall x w, In (x, w) kd -> x = $"key" /\ plainv w = true /\ exists y, cp E N w = Ok y)
    /\ aget $"key" ([($"value", wv); ($"default", dflt)] ++ kd) = match kd with [] => None | (_, w) :: _ => Some w end
    /\ match kd with
       | [] => kg = None /\ key = None
       | (_, w) :: _ => exists g, kg = Some g /\ is_none w = false /\ cp E N w = Ok (VField g) /\ sound E g
       end
    /\ option_map undocumented kg = option_map undocumented (option_map undescribed key)).
  { destruct key as [kf|].
    - destruct (Ht kf) as [wk [gk [K1 [K2 [K3 [K4 [K5 K6]]]]]]]; [unfold k; right; left; reflexivity|].
      exists [($"key", wk)], (Some gk). rewrite K1. split; [reflexivity|]. split; [apply nodupb_NoDup; reflexivity|].
      split; [intros x w [Hx|[]]; injection Hx as <- <-; split; [reflexivity|]; split; [exact K2|]; eexists; exact K4|].
      split; [reflexivity|]. split; [exists gk; exact (conj eq_refl (conj K3 (conj K4 K6)))|]. cbn. f_equal. exact K5.
    - exists [], None. split; [reflexivity|]. split; [apply nodupb_NoDup; reflexivity|]. split; [intros ? ? []|].
      split; [reflexivity|]. split; [auto|reflexivity]. }
  destruct Hk as [kd [kg [K1 [K2 [K3 [K4 [K5 K6]]]]]]].
  exists ([($"value", wv); ($"default", dflt)] ++ kd).
  assert (Hfin : exists items g, describe_items E desc false p k ([($"value", wv); ($"default", dflt)] ++ kd) = Ok items /\ plainv (VDict false (strs items)) = true
    /\ cp E N (VDict false (strs items)) = Ok (VField g) /\ alike g (undescribed (Fld p k)) /\ sound E g).
  { apply describe_finish; try assumption.
    - intros x w Hi. cbn [app] in Hi. destruct Hi as [Hi|[Hi|Hi]].
      + injection Hi as <- <-. split; [left; split; reflexivity|]. intros _. split; [exact V2|eexists; exact V4].
      + injection Hi as <- <-. split; [right; reflexivity|]. apply (default_given E N k); [reflexivity|exact Hdef].
      + destruct (K3 x w Hi) as [-> Hw]. split; [left; split; reflexivity|]. intros _. exact Hw.
    - reflexivity.
    - intros kw HL. exists (KMap gv kg rk). split; [|split; [|split; [reflexivity|]]].
      + cbn [kind_ok]. unfold arg.
        rewrite (looks_given _ _ _ _ _ _ $"value" wv HL eq_refl eq_refl V3), (reread_ok _ _ _ _ V4). split; [reflexivity|].
        split.
        * destruct kd as [|[x w] kd].
          -- destruct K5 as [-> ->]. rewrite (looks_class _ _ _ _ _ _ $"key" HL eq_refl eq_refl K4). reflexivity.
          -- destruct K5 as [g [-> [Hn [Hc Hs]]]]. rewrite (looks_given _ _ _ _ _ _ $"key" w HL eq_refl K4 Hn), (reread_ok _ _ _ _ Hc).
             destruct (sound_inv E g Hs) as [pg [kk ->]]. reflexivity.
        * assert (Hr : aget $"required_keys" ([($"value", wv); ($"default", dflt)] ++ kd) = None).
          { apply aget_None. intros Hi. cbn [app map fst In] in Hi. destruct Hi as [Hi|[Hi|Hi]]; try discriminate.
            apply in_map_iff in Hi. destruct Hi as [[x w] [Hx Hi]]. apply K3 in Hi. cbn [fst] in Hx. destruct Hi as [Hi _]. rewrite Hi in Hx. discriminate. }
          rewrite (looks_class _ _ _ _ _ _ $"required_keys" HL eq_refl eq_refl Hr). destruct rk as [l|]; [|reflexivity].
          cbn in Hdk. cbn. rewrite (Hdk l eq_refl). reflexivity.
      + unfold kalike, k. cbn [kmap undescribed_kind]. rewrite K6. f_equal. exact V5.
      + intros g Hg. destruct kd as [|[x w] kd]; [destruct K5 as [-> _]; destruct Hg as [<-|[]]; exact V6|].
        destruct K5 as [g' [-> [_ [_ Hs]]]]. destruct Hg as [<-|[<-|[]]]; [exact V6|exact Hs]. }
  destruct Hfin as [items [g Hfin]]. exists items, g. split; [|exact Hfin].
  unfold k. cbn [describe_given]. rewrite Hdf. cbn [bind]. rewrite V1. cbn [bind]. rewrite K1. reflexivity.
Qed.

Lemma describe_sequence item mn mx u :
  let k := KSequence item mn mx u in
  describable_params E p k -> describable_kind E k -> constructed_kind E k ->
  (forall h, In h (subfields k) -> tells E N desc h) ->
  exists given items g, describe_given E desc desc proc p k = Ok given /\ 
    describe_items E desc false p k given = Ok items /\ plainv (VDict false (strs items)) = true
    /\ cp E N (VDict false (strs items)) = Ok (VField g) /\ alike g (undescribed (Fld p k)) /\ sound E g.
Proof.
  intros k Hdp Hdk Hck Ht.
  destruct (Ht item) as [wv [gv [V1 [V2 [V3 [V4 [V5 V6]]]]]]]; [unfold k; left; reflexivity|].
  assert (Hdef : describable_default E k (p_default p)) by apply Hdp.
  set (dflt := if truthy (p_default p) then p_default p else VNone).
  exists [($"item", wv); ($"default", dflt)].
  assert (Hfin : exists items g, describe_items E desc false p k [($"item", wv); ($"default", dflt)] = Ok items /\ plainv (VDict false (strs items)) = true
    /\ cp E N (VDict false (strs items)) = Ok (VField g) /\ alike g (undescribed (Fld p k)) /\ sound E g).
  { apply describe_finish; try assumption.
    - apply nodupb_NoDup; reflexivity.
    - intros x w Hi. destruct Hi as [Hi|[Hi|[]]].
      + injection Hi as <- <-. split; [left; split; reflexivity|]. intros _. split; [exact V2|eexists; exact V4].
      + injection Hi as <- <-. split; [right; reflexivity|]. apply (default_given E N k); [reflexivity|exact Hdef].
    - reflexivity.
    - intros kw HL. exists (KSequence gv mn mx u). split; [|split; [|split; [reflexivity|]]].
      + cbn [kind_ok]. unfold flag, arg.
        rewrite (looks_given _ _ _ _ _ _ $"item" wv HL eq_refl eq_refl V3), (reread_ok _ _ _ _ V4). split; [reflexivity|].
        seek HL $"min_length". seek HL $"max_length". seek HL $"unique". rewrite Hg, Hg0, Hg1. destruct Hck as [Hn1 Hn2].
        split; [destruct mn; [apply (length_arg_val (Some _)); assumption|reflexivity]|].
        split; [destruct mx; [apply (length_arg_val (Some _)); assumption|reflexivity]|]. destruct u; reflexivity.
      + unfold kalike, k. cbn [kmap undescribed_kind]. f_equal. exact V5.
      + intros g [<-|[]]. exact V6. }
  destruct Hfin as [items [g Hfin]]. exists items, g. split; [|exact Hfin].
  unfold k. cbn [describe_given].
  assert (Hdf : (if truthy (p_default p) then
                    match py_iter (p_default p) with
                    | None => py TypeError
                    | Some l => do l' <- each (proc item) l; Ok (VList l')
                    end
                  else Ok VNone) = Ok dflt).
  { unfold dflt. destruct (truthy (p_default p)) eqn:Htr; [|reflexivity]. destruct Hdef as [Hf|[_ [l [Hl Hu]]]]; [congruence|].
    rewrite Hl. cbn [py_iter]. rewrite each_id; [reflexivity|]. intros x Hx. apply (Hu x Hx). }
  rewrite Hdf. cbn [bind]. rewrite V1. reflexivity.
Qed.

Lemma describe_tuple fs :
  let k := KTuple fs in
  describable_params E p k -> describable_kind E k -> constructed_kind E k ->
  (forall h, In h (subfields k) -> tells E N desc h) ->
  exists given items g, describe_given E desc desc proc p k = Ok given /\ 
    describe_items E desc false p k given = Ok items /\ plainv (VDict false (strs items)) = true
    /\ cp E N (VDict false (strs items)) = Ok (VField g) /\ alike g (undescribed (Fld p k)) /\ sound E g.
Proof.
  intros k Hdp Hdk Hck Ht.
  destruct (tells_list E N desc fs Ht) as [ws [gs [V1 [V2 [V4 [V5 V6]]]]]].
  assert (Hdef : describable_default E k (p_default p)) by apply Hdp.
  set (dflt := if truthy (p_default p) then p_default p else VNone).
  exists [($"values", VList ws); ($"default", dflt)].
  assert (Hcp : cp E N (VList ws) = Ok (VList (map VField gs))) by (rewrite cp_list, V4; reflexivity).
  assert (Hne : gs <> []) by (intros ->; destruct fs; [apply Hck; reflexivity|discriminate]).
  assert (Hfin : exists items g, describe_items E desc false p k [($"values", VList ws); ($"default", dflt)] = Ok items /\ plainv (VDict false (strs items)) = true
    /\ cp E N (VDict false (strs items)) = Ok (VField g) /\ alike g (undescribed (Fld p k)) /\ sound E g).
  { apply describe_finish; try assumption.
    - apply nodupb_NoDup; reflexivity.
    - intros x w Hi. destruct Hi as [Hi|[Hi|[]]].
      + injection Hi as <- <-. split; [left; split; reflexivity|]. intros _. split; [exact V2|eexists; exact Hcp].
      + injection Hi as <- <-. split; [right; reflexivity|]. apply (default_given E N k); [reflexivity|exact Hdef].
    - reflexivity.
    - intros kw HL. exists (KTuple gs). split; [|split; [|split; [reflexivity|]]].
      + cbn [kind_ok]. unfold arg.
        rewrite (looks_given _ _ _ _ _ _ $"values" (VList ws) HL eq_refl eq_refl eq_refl), (reread_ok _ _ _ _ Hcp). apply fields_list, Hne.
      + unfold kalike, k. cbn [kmap undescribed_kind]. f_equal. exact V5.
      + exact V6. }
  destruct Hfin as [items [g Hfin]]. exists items, g. split; [|exact Hfin].
  unfold k. cbn [describe_given]. rewrite V1. cbn [bind].
  assert (Hdf : (if truthy (p_default p) then
                    match py_iter (p_default p) with
                    | None => py TypeError
                    | Some l => do l' <- each (fun fv => proc (fst fv) (snd fv)) (combine fs l);
                                Ok (VTuple l')
                    end
                  else Ok VNone) = Ok dflt).
  { unfold dflt. destruct (truthy (p_default p)) eqn:Htr; [|reflexivity]. destruct Hdef as [Hf|[_ [l [Hl Hu]]]]; [congruence|].
    rewrite Hl. cbn [py_iter].
    assert (Hx : each (fun fv => proc (fst fv) (snd fv)) (combine fs l) = Ok l).
    { clear -Hu. induction Hu as [|f x fs l H Hu IH]; [reflexivity|]. cbn [combine each fst snd].
      assert (Hp : proc f x = Ok x) by apply H. rewrite Hp. cbn [bind]. rewrite IH. reflexivity. }
    rewrite Hx. reflexivity. }
  rewrite Hdf. reflexivity.
Qed.

Lemma describe_union fs :
  let k := KUnion fs in
  describable_params E p k -> describable_kind E k -> constructed_kind E k ->
  (forall h, In h (subfields k) -> tells E N desc h) ->
  exists given items g, describe_given E desc desc proc p k = Ok given /\ 
    describe_items E desc false p k given = Ok items /\ plainv (VDict false (strs items)) = true
    /\ cp E N (VDict false (strs items)) = Ok (VField g) /\ alike g (undescribed (Fld p k)) /\ sound E g.
Proof.
  intros k Hdp Hdk Hck Ht.
  destruct (tells_list E N desc fs Ht) as [ws [gs [V1 [V2 [V4 [V5 V6]]]]]].
  exists [($"fields", VList ws)].
  assert (Hcp : cp E N (VList ws) = Ok (VList (map VField gs))) by (rewrite cp_list, V4; reflexivity).
  assert (Hne : gs <> []) by (intros ->; destruct fs; [apply Hck; reflexivity|discriminate]).
  assert (Hfin : exists items g, describe_items E desc false p k [($"fields", VList ws)] = Ok items /\ plainv (VDict false (strs items)) = true
    /\ cp E N (VDict false (strs items)) = Ok (VField g) /\ alike g (undescribed (Fld p k)) /\ sound E g).
  { apply describe_finish; try assumption.
    - apply nodupb_NoDup; reflexivity.
    - intros x w Hi. destruct Hi as [Hi|[]].
      injection Hi as <- <-. split; [left; split; reflexivity|]. intros _. split; [exact V2|eexists; exact Hcp].
    - reflexivity.
    - intros kw HL. exists (KUnion gs). split; [|split; [|split; [reflexivity|]]].
      + cbn [kind_ok]. unfold arg.
        rewrite (looks_given _ _ _ _ _ _ $"fields" (VList ws) HL eq_refl eq_refl eq_refl), (reread_ok _ _ _ _ Hcp). apply fields_list, Hne.
      + unfold kalike, k. cbn [kmap undescribed_kind]. f_equal. exact V5.
      + exact V6. }
  destruct Hfin as [items [g Hfin]]. exists items, g. split; [|exact Hfin].
  unfold k. cbn [describe_given]. rewrite V1. reflexivity.
Qed.

Lemma describe_struct d s o :
  let k := KStructure d s o in
  (m <= N)%nat -> (forall h, In h (subfields k) -> within m h) ->
  describable_params E p k -> describable_kind E k -> constructed_kind E k ->
  (forall h, In h (subfields k) -> tells E N desc h) ->
  exists given items g, describe_given E desc desc proc p k = Ok given /\ 
    describe_items E desc false p k given = Ok items /\ plainv (VDict false (strs items)) = true
    /\ cp E N (VDict false (strs items)) = Ok (VField g) /\ alike g (undescribed (Fld p k)) /\ sound E g.
Proof.
  intros k Hm Hwi Hdp Hdk Hck Ht.
  assert (Hdef : describable_default E k (p_default p)) by apply Hdp.
  set (dflt := if truthy (p_default p) then p_default p else VNone).
  assert (Hx : exists od sd d', describe_given E desc desc proc p k = Ok [($"default", dflt); ($"polymorphic_on", od); ($"structure", sd)]
    /\ (is_none od = false -> plainv od = true) /\ plainv sd = true /\ is_none sd = false
    /\ (if is_none od then Ok VNone else cp E N od) = Ok (match d' with SPoly on _ => VField on | SPlain _ => VNone end)
    /\ cp E N sd = Ok (match d' with
                      | SPlain l => struct_val l
                      | SPoly _ vs => VDict false (map (fun vl => (fst vl, struct_val (snd vl))) vs)
                      end)
    /\ sdef_map undocumented d' = sdef_map undocumented (sdef_map undescribed d)
    /\ forall g, In g (sdef_fields d') -> sound E g).
  { destruct d as [l|on vs].
    - destruct (tells_struct E N desc l Ht Hdk) as [w [l' [V1 [V2 [V3 [V4 [V5 V6]]]]]]].
      exists VNone, w, (SPlain l'). split; [|split; [discriminate|]; repeat (split; [first [assumption|reflexivity]|]); split; [cbn; f_equal; exact V5|exact V6]].
      unfold k. cbn [describe_given]. rewrite V1. cbn [bind].
      assert (Hdf : describe_default E desc l (p_default p) = Ok dflt).
      { unfold describe_default, dflt. destruct (truthy (p_default p)) eqn:Htr; [|reflexivity]. destruct Hdef as [Hf|[_ [l0 [Hl Hu]]]]; [congruence|].
        rewrite Hl. cbn [as_dict]. rewrite each_id; [reflexivity|]. intros [a x] Hi. unfold strs in Hi. apply in_map_iff in Hi. destruct Hi as [[b y] [Hb Hi]].
        injection Hb as <- <-. cbn [fst snd]. destruct (Hu _ _ Hi) as [q [kx [-> Hs]]]. cbn [slot_serialize]. rewrite Hs. reflexivity. }
      rewrite Hdf. reflexivity.
    - destruct Hdk as [Hdv Hdo].
      destruct (Ht on) as [wo [go [O1 [O2 [O3 [O4 [O5 O6]]]]]]]; [unfold k; left; reflexivity|].
      destruct (tells_variants E N desc desc on vs) as [ws [vs' [V1 V2]]].
      { intros h Hh. apply Ht. right. exact Hh. }
      { intros vd Hi. destruct (Hdv vd Hi) as [_ [H1 [H2 [q [kd [-> H3]]]]]]. split; [exact H1|]. split; [exact H2|]. apply H3. }
      { exact Hdo. }
      cbv zeta in V2. destruct V2 as [V2 [V3 [V4 V5]]].
      eexists wo, _, (SPoly go vs'). split.
      { assert (Htf : truthy (p_default p) = false) by (destruct Hdef as [Hf|[_ []]]; exact Hf).
        unfold k, dflt. cbn [describe_given]. unfold describe_default. rewrite Htf. cbn [bind]. rewrite V1. cbn [bind]. rewrite O1. reflexivity. }
      split; [intros _; exact O2|]. split; [exact V2|]. split; [reflexivity|]. split; [rewrite O3; exact O4|]. split; [exact V3|].
      split; [cbn; f_equal; [exact O5|]|intros g [<-|Hg]; [exact O6|apply V5, Hg]].
      unfold uv, undv in V4. rewrite map_map in V4. rewrite map_map. cbn [fst snd] in *. exact V4. }
  destruct Hx as [od [sd [d' [H1 [H2 [H3 [H4 [H5 [H6 [H7 H8]]]]]]]]]].
  exists [($"default", dflt); ($"polymorphic_on", od); ($"structure", sd)].
  assert (Hfin : exists items g, describe_items E desc false p k [($"default", dflt); ($"polymorphic_on", od); ($"structure", sd)] = Ok items /\ plainv (VDict false (strs items)) = true
    /\ cp E N (VDict false (strs items)) = Ok (VField g) /\ alike g (undescribed (Fld p k)) /\ sound E g).
  { apply describe_finish; try assumption.
    - apply nodupb_NoDup; reflexivity.
    - intros x w Hi. destruct Hi as [Hi|[Hi|[Hi|[]]]]; injection Hi as <- <-.
      + split; [right; reflexivity|]. apply (default_given E N k); [reflexivity|exact Hdef].
      + split; [left; split; reflexivity|]. intros Hn. split; [auto|]. rewrite Hn in H5. eexists; exact H5.
      + split; [left; split; reflexivity|]. intros _. split; [exact H3|]. eexists; exact H6.
    - reflexivity.
    - intros kw HL. set (k1 := KStructure d' s None : kind).
      assert (Hka : kalike k1 (undescribed_kind (kmap undescribed k))) by (unfold kalike, k1, k; cbn [kmap undescribed_kind]; rewrite H7; reflexivity).
      assert (Hck1 : constructed_kind E k1) by (apply (constructed_kind_alike E _ _ Hka), constructed_undescribed; assumption).
      destruct (kind_ok_attrs E (clone E N) (kind_attrs E k1) k1 Hck1 H8) as [k2 [Hok [Hka2 [Hcls Hsub]]]].
      { auto. }
      { reflexivity. }
      { intros on vs q kd s' o' i Hk -> Hi. injection Hk as -> <- <-.
        destruct (clone_ok E N q kd [($"constant", i)]) as [c [C1 [C2 C3]]].
        - destruct d as [l|on0 vs0]; [discriminate|]. cbn in H7. injection H7 as Hon _.
          apply (within_alike N (Fld q kd) (undescribed on0) Hon). apply within_undescribed, (within_mono m); [exact Hm|]. apply Hwi. left. reflexivity.
        - apply H8. left. reflexivity.
        - constructor; [|constructor]. left. unfold k1 in Hck1. cbn [constructed_kind] in Hck1. destruct Hck1 as [_ [q' [kd' [name [_ [_ [_ HF]]]]]]].
          apply in_map_iff in Hi. destruct Hi as [vd [<- Hi]]. rewrite Forall_forall in HF. destruct (HF _ Hi) as [_ [Hf _]].
          destruct (fst vd); cbn in Hf |- *; auto 10.
        - exists c. split; [exact C1|]. split; [|exact C3]. rewrite replaced_constant in C2. rewrite <- (rekind_const i kd). exact C2. }
      exists k2. split; [|split; [apply (kalike_trans _ _ _ Hka2 Hka)|split; [exact Hcls|exact Hsub]]].
      destruct k2; try discriminate.
      apply (kind_ok_transfer E _ kw (kind_attrs E k1)); [exact Hok| | | | |].
      + unfold arg. rewrite (looks_class _ _ _ _ _ _ $"key_order" HL eq_refl eq_refl eq_refl). reflexivity.
      + unfold flag_on, arg. rewrite (looks_class _ _ _ _ _ _ $"strict" HL eq_refl eq_refl eq_refl). destruct s; reflexivity.
      + unfold arg. rewrite (looks_class _ _ _ _ _ _ $"generate_default" HL eq_refl eq_refl eq_refl). reflexivity.
      + unfold arg at 1. destruct (is_none od) eqn:Hn.
        * destruct od; try discriminate. rewrite (looks_none _ _ _ _ _ _ $"polymorphic_on" HL eq_refl eq_refl). apply Ok_inj in H5. exact H5.
        * rewrite (looks_given _ _ _ _ _ _ $"polymorphic_on" od HL eq_refl eq_refl Hn), (reread_ok _ _ _ _ H5). reflexivity.
      + unfold arg at 1. rewrite (looks_given _ _ _ _ _ _ $"structure" sd HL eq_refl eq_refl H4), (reread_ok _ _ _ _ H6). reflexivity. }
  destruct Hfin as [items [g Hfin]]. exists items, g. split; [exact H1|exact Hfin].
Qed.

End Structural.

Lemma describe_ok E N : forall n f, (n <= N)%nat -> within n f -> sound E f -> describable E f ->
  exists items g, describe E n false f = Ok (VDict false (strs items)) /\ plainv (VDict false (strs items)) = true
    /\ cp E N (VDict false (strs items)) = Ok (VField g) /\ alike g (undescribed f) /\ sound E g.
Proof.
  induction n as [|m IH]; intros f HN Hw Hs Hd; [contradiction|].
  destruct (sound_inv E f Hs) as [p [k ->]]. apply sound_Fld in Hs. destruct Hs as [Hcp [Hck Hsub]].
  inversion Hd as [|? ? [Hdp Hdk] Hds]; subst. clear Hd. cbn [within] in Hw.
  set (desc := describe E m false) in *.
  set (proc := fun g v => process_gen E desc (reconstruct E m) m g false Outbound true [] v).
  assert (Htell : forall h, In h (subfields k) -> tells E N desc h).
  { intros h Hh. destruct (IH h) as [items [g [H1 [H2 [H3 [H4 H5]]]]]]; [lia|apply Hw, Hh|apply Hsub, Hh|apply Hds, Hh|].
    exists (VDict false (strs items)), g. exact (conj H1 (conj H2 (conj eq_refl (conj H3 (conj H4 H5))))). }
  assert (Hgo : forall given, describe_given E desc desc proc p k = Ok given ->
    (exists items g, describe_items E desc false p k given = Ok items /\ plainv (VDict false (strs items)) = true
    /\ cp E N (VDict false (strs items)) = Ok (VField g) /\ alike g (undescribed (Fld p k)) /\ sound E g) ->
    exists items g, describe E (S m) false (Fld p k) = Ok (VDict false (strs items)) /\ plainv (VDict false (strs items)) = true
    /\ cp E N (VDict false (strs items)) = Ok (VField g) /\ alike g (undescribed (Fld p k)) /\ sound E g).
  { intros given Hgv [items [g [H1 H2]]]. exists items, g. split; [|exact H2]. cbn [describe]. fold desc. fold proc.
    rewrite Hgv. cbn [bind]. rewrite H1. reflexivity. }
  assert (Hplain : describe_given E desc desc proc p k = Ok [] -> own_default k = false -> 
    (forall kw, looks E N p k [] kw -> kind_ok E (clone E N) kw (undescribed_kind (kmap undescribed k))) ->
    subfields k = [] ->
    exists items g, describe E (S m) false (Fld p k) = Ok (VDict false (strs items)) /\ plainv (VDict false (strs items)) = true
    /\ cp E N (VDict false (strs items)) = Ok (VField g) /\ alike g (undescribed (Fld p k)) /\ sound E g).
  { intros H1 H2 H3 H4. apply (Hgo [] H1). apply describe_finish; try assumption.
    - constructor.
    - intros key w [].
    - rewrite H2. reflexivity.
    - intros kw HL. exists (undescribed_kind (kmap undescribed k)). split; [apply H3, HL|]. split; [apply kalike_refl|].
      split; [apply undescribed_cls|]. rewrite undescribed_sub, subfields_kmap, H4. intros g []. }
  assert (Hbounds : forall A (text : A -> str) mn mx,
    describe_given E desc desc proc p k = Ok (bound $"maximum" text mx ++ bound $"minimum" text mn) ->
    own_default k = false -> subfields k = [] ->
    smem $"maximum" (class_args (cls_of k)) = true -> smem $"minimum" (class_args (cls_of k)) = true ->
    (forall kw, looks E N p k (bound $"maximum" text mx ++ bound $"minimum" text mn) kw ->
       kind_ok E (clone E N) kw (undescribed_kind (kmap undescribed k))) ->
    exists items g, describe E (S m) false (Fld p k) = Ok (VDict false (strs items)) /\ plainv (VDict false (strs items)) = true
    /\ cp E N (VDict false (strs items)) = Ok (VField g) /\ alike g (undescribed (Fld p k)) /\ sound E g).
  { intros A text mn mx H1 H2 H4 Hc1 Hc2 H3. apply (Hgo _ H1). destruct (bounds_get text mn mx) as [_ [_ [_ [B4 B5]]]].
    apply describe_finish; try assumption.
    - apply bounds_given; assumption.
    - rewrite H2. exact B4.
    - intros kw HL. exists (undescribed_kind (kmap undescribed k)). split; [apply H3, HL|]. split; [apply kalike_refl|].
      split; [apply undescribed_cls|]. rewrite undescribed_sub, subfields_kmap, H4. intros g []. }
  destruct k as [ |mn mx| |mn mx|mn mx utc|mn mx|vf|mu ex mn mx|l ig| |mn mx|mn mx|value kf rk| |item mn mx u|d s o|vs
                 |pat mn mx st|mn mx|sg|l|l| ]; cbn [constructed_kind describable_kind] in Hck, Hdk.
  - apply Hplain; try reflexivity; intros; exact I.
  - apply Hplain; try reflexivity. intros kw HL. seek HL $"min_length". seek HL $"max_length". cbn [kmap undescribed_kind kind_ok].
    unfold arg. rewrite Hg, Hg0. destruct Hck as [Hn1 Hn2]. split; [destruct mn|destruct mx]; try reflexivity; apply (length_arg_val (Some _)); assumption.
  - apply Hplain; try reflexivity; intros; exact I.
  - apply (Hbounds _ (date_text (e_pad E)) mn mx); try reflexivity. intros kw HL.
    destruct (bounds_get (date_text (e_pad E)) mn mx) as [B1 [B2 _]].
    cbn [kmap undescribed_kind kind_ok].
    rewrite (bound_look E N p _ (date_text (e_pad E)) mn _ kw $"minimum" HL) by (reflexivity || assumption || (intros ->; reflexivity)).
    rewrite (bound_look E N p _ (date_text (e_pad E)) mx _ kw $"maximum" HL) by (reflexivity || assumption || (intros ->; reflexivity)).
    split; [destruct mn as [a|]|destruct mx as [a|]]; try reflexivity; cbn; destruct (Hdk a) as [Ha1 Ha2]; auto;
      rewrite parse_date_text by assumption; reflexivity.
  - destruct Hck as [Hz1 Hz2].
    apply (Hbounds _ (datetime_text (e_pad E)) mn mx); try reflexivity. intros kw HL.
    destruct (bounds_get (datetime_text (e_pad E)) mn mx) as [B1 [B2 [B3 _]]].
    cbn [kmap undescribed_kind kind_ok].
    rewrite (bound_look E N p _ (datetime_text (e_pad E)) mn _ kw $"minimum" HL) by (reflexivity || assumption || (intros ->; reflexivity)).
    rewrite (bound_look E N p _ (datetime_text (e_pad E)) mx _ kw $"maximum" HL) by (reflexivity || assumption || (intros ->; reflexivity)).
    assert (Hu := looks_class _ _ _ _ _ _ $"utc" HL eq_refl eq_refl B3).
    split; [unfold flag, arg; rewrite Hu; destruct utc; reflexivity|].
    assert (Hdt : forall a, (mn = Some a \/ mx = Some a) -> in_zone (e_local E) utc (Some a) ->
              datetime_arg E utc (VStr (datetime_text (e_pad E) a)) = Ok (Some a)).
    { intros a Ha Hz. destruct (Hdk a Ha) as [-> [[H1 H2] [H3 H4]]]. cbn [datetime_arg].
      rewrite parse_datetime_text by (split || idtac; assumption). cbn in Hz. destruct Hz as [Hz _].
      destruct a as [da [h mi se us] tz]. cbn in *. subst us tz. reflexivity. }
    split; [destruct mn as [a|]|destruct mx as [a|]]; try reflexivity; apply Hdt; auto.
  - apply (Hbounds _ dec_text mn mx); try reflexivity. intros kw HL.
    destruct (bounds_get dec_text mn mx) as [B1 [B2 _]].
    cbn [kmap undescribed_kind kind_ok].
    rewrite (bound_look E N p _ dec_text mn _ kw $"minimum" HL) by (reflexivity || assumption || (intros ->; reflexivity)).
    rewrite (bound_look E N p _ dec_text mx _ kw $"maximum" HL) by (reflexivity || assumption || (intros ->; reflexivity)).
    split; [destruct mn as [a|]|destruct mx as [a|]]; try reflexivity; cbn; rewrite parse_dec_text; reflexivity.
  - apply Hplain; try reflexivity. intros kw HL. seek HL $"valid_fields". cbn [kmap undescribed_kind kind_ok]. unfold arg. rewrite Hg.
    destruct Hck as [Hi Hc]. destruct vf as [[|x l]|]; [contradiction Hi; reflexivity| |reflexivity]. cbn.
    rewrite data_strs. unfold valid_fields_arg. cbn [truthy map negb]. rewrite <- (map_cons VStr), each_map.
    rewrite each_id; [reflexivity|]. intros y Hy. destruct (Hc _ y eq_refl Hy) as [c <-]. rewrite find_cls_name. reflexivity.
  - apply Hplain; try reflexivity. intros kw HL. seek HL $"multiple". seek HL $"extended". seek HL $"min_length". seek HL $"max_length".
    cbn [kmap undescribed_kind kind_ok]. unfold flag, arg. rewrite Hg, Hg0, Hg1, Hg2. destruct Hck as [Hn1 [Hn2 Hn3]].
    split; [destruct mu; reflexivity|]. split; [destruct ex; reflexivity|].
    split; [destruct mu, ex; try reflexivity; exfalso; apply Hn3; auto|].
    split; [destruct mn|destruct mx]; try reflexivity; apply (length_arg_val (Some _)); assumption.
  - apply Hplain; try reflexivity. intros kw HL. seek HL $"enumeration". seek HL $"ignored_values". cbn [kmap undescribed_kind kind_ok].
    unfold arg. rewrite Hg, Hg0. cbn. rewrite Hdk. destruct Hck as [[H1 _] _]. cbn [enumeration_arg]. unfold natives. rewrite H1. split; reflexivity.
  - apply Hplain; try reflexivity; intros; exact I.
  - apply Hplain; try reflexivity. intros kw HL. seek HL $"minimum". seek HL $"maximum". cbn [kmap undescribed_kind kind_ok].
    unfold arg. rewrite Hg, Hg0. destruct mn, mx; split; reflexivity.
  - apply Hplain; try reflexivity. intros kw HL. seek HL $"minimum". seek HL $"maximum". cbn [kmap undescribed_kind kind_ok].
    unfold arg. rewrite Hg, Hg0. destruct mn, mx; split; reflexivity.
  - assert (Hx := describe_map E N m p value kf rk Hdp Hdk Hck Htell). destruct Hx as [given [items [g [Hx Hy]]]].
    apply (Hgo given Hx). exists items, g. exact Hy.
  - apply Hplain; try reflexivity; intros; exact I.
  - assert (Hx := describe_sequence E N m p item mn mx u Hdp Hdk Hck Htell). destruct Hx as [given [items [g [Hx Hy]]]].
    apply (Hgo given Hx). exists items, g. exact Hy.
  - assert (Hm : (m <= N)%nat) by lia.
    assert (Hx := describe_struct E N m p d s o Hm Hw Hdp Hdk Hck Htell). destruct Hx as [given [items [g [Hx Hy]]]].
    apply (Hgo given Hx). exists items, g. exact Hy.
  - apply Hplain; try reflexivity. intros kw HL. seek HL $"valid_surrogates". cbn [kmap undescribed_kind kind_ok]. unfold arg. rewrite Hg.
    destruct vs as [[|x l]|]; [contradiction Hck; reflexivity| |reflexivity]. cbn. rewrite data_strs.
    unfold valid_surrogates_arg. cbn [truthy map py_iter negb]. rewrite <- (map_cons VStr), each_map. rewrite each_id; reflexivity.
  - apply Hplain; try reflexivity. intros kw HL. seek HL $"min_length". seek HL $"max_length". seek HL $"strip". seek HL $"pattern".
    cbn [kmap undescribed_kind kind_ok]. unfold flag_on, arg. rewrite Hg, Hg0, Hg1, Hg2. destruct Hck as [Hn1 Hn2].
    split; [reflexivity|]. split; [destruct mn; [apply (length_arg_val (Some _)); assumption|reflexivity]|].
    split; [destruct mx; [apply (length_arg_val (Some _)); assumption|reflexivity]|]. destruct st; reflexivity.
  - apply (Hbounds _ tod_text mn mx); try reflexivity. intros kw HL.
    destruct (bounds_get tod_text mn mx) as [B1 [B2 _]].
    cbn [kmap undescribed_kind kind_ok].
    rewrite (bound_look E N p _ tod_text mn _ kw $"minimum" HL) by (reflexivity || assumption || (intros ->; reflexivity)).
    rewrite (bound_look E N p _ tod_text mx _ kw $"maximum" HL) by (reflexivity || assumption || (intros ->; reflexivity)).
    split; [destruct mn as [a|]|destruct mx as [a|]]; try reflexivity; cbn [time_arg]; destruct (Hdk a) as [Ha1 Ha2]; auto;
      rewrite parse_tod_text by assumption; destruct a; cbn in *; subst; reflexivity.
  - apply Hplain; try reflexivity. intros kw HL. seek HL $"segments". cbn [kmap undescribed_kind kind_ok]. unfold arg. rewrite Hg. reflexivity.
  - assert (Hx := describe_tuple E N m p l Hdp Hdk Hck Htell). destruct Hx as [given [items [g [Hx Hy]]]].
    apply (Hgo given Hx). exists items, g. exact Hy.
  - assert (Hx := describe_union E N m p l Hdp Hdk Hck Htell). destruct Hx as [given [items [g [Hx Hy]]]].
    apply (Hgo given Hx). exists items, g. exact Hy.
  - apply Hplain; try reflexivity; intros; exact I.
Qed.
