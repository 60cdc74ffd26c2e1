(** * Processing with recursive schemas ends (C93). *)
(* @imports Spec Demo UndefSpec TermSpec *)
From Verif Require Import PyBaseFacts Induct Spec Demo ProcessFacts ScalarProofs StructFacts StructProofs MapProofs LocProofs ConfProofs UndefSpec TermSpec
  EscapeProofs.

(** ** Depths *)

Lemma depth_parts v w : In w (parts_of v) -> (depth w < depth v)%nat.
Proof.
  assert (HL : forall l, In w l ->
    (depth w <= (fix deepest l := match l with [] => O | x :: l' => Nat.max (depth x) (deepest l') end) l)%nat).
  { induction l as [|x l IH]; intros Hw; [destruct Hw|]. destruct Hw as [->|Hw]; [lia|]. specialize (IH Hw). lia. }
  assert (HD : forall l, In w (map fst l ++ map snd l) ->
    (depth w <= (fix deepest l := match l with
                           | [] => O
                           | (a, b) :: l' => Nat.max (Nat.max (depth a) (depth b)) (deepest l')
                           end) l)%nat).
  { induction l as [|[a b] l IH]; intros Hw; [destruct Hw|].
    assert (Hc : a = w \/ b = w \/ In w (map fst l ++ map snd l)).
    { cbn in Hw. destruct Hw as [|Hw]; [auto|]. apply in_app_or in Hw. destruct Hw as [Hw|[Hw|Hw]]; auto;
        right; right; apply in_or_app; auto. }
    destruct Hc as [->|[->|Hc]]; [lia|lia|]. specialize (IH Hc). lia. }
  destruct v; cbn [parts_of]; intros Hw; try (destruct Hw); cbn [depth]; apply le_n_S; auto.
Qed.

(** ** Outcomes other than RecursionError *)

Definition calm {A} (r : res A) : Prop := r <> Raise (XPy RecursionError).

Lemma calm_Ok {A} (a : A) : calm (Ok a).
Proof. discriminate. Qed.

Lemma calm_bind {A B} (r : res A) (g : A -> res B) :
  calm r -> (forall a, r = Ok a -> calm (g a)) -> calm (bind r g).
Proof.
  intros Hr Hg H. apply bind_Raise in H. destruct H as [H|[a [Ha H]]]; [exact (Hr H)|exact (Hg a Ha H)].
Qed.

Section Calm.
Variable E : env.

Lemma wrap_calm f r : calm r -> calm (wrap_undef E f r).
Proof.
  intros Hr H. destruct r as [a|[e|y]]; cbn in H; try discriminate.
  destruct y; try discriminate; try (apply Hr; reflexivity).
  destruct (undefined E f); discriminate.
Qed.

Lemma collect_calm r : calm r -> calm (collect r).
Proof.
  intros Hr H. destruct r as [a|[e|y]]; cbn in H; try discriminate. injection H as ->. apply Hr. reflexivity.
Qed.

Lemma step_calm (c : child) ph ser anc v :
  calm (snd c ph ser anc v) -> calm (collect (wrap_undef E (fst c) (snd c ph ser anc v))).
Proof. intros H. apply collect_calm, wrap_calm, H. Qed.

Lemma key_calm v : calm (key_seg E v).
Proof. rewrite key_seg_percent. destruct (percent_s E v); discriminate. Qed.

Lemma null_calm p anc v : calm (is_null (e_local E) p None anc v).
Proof. apply is_null_py. Qed.

Lemma seq_calm (c : child) ph ser anc i l :
  (forall a w, In w l -> calm (snd c ph ser a w)) -> calm (seq_loop E c ph ser anc i l).
Proof.
  revert i. induction l as [|v l IH]; intros i Hc; cbn [seq_loop]; [discriminate|].
  apply calm_bind; [apply step_calm, Hc; left; reflexivity|]. intros x _.
  apply calm_bind; [apply IH; intros; apply Hc; right; assumption|]. discriminate.
Qed.

Lemma tuple_calm (cs : list child) ph ser anc i v :
  (exists l, v = VList l \/ v = VTuple l) ->
  (forall c a w, In c cs -> In w (parts_of v) -> calm (snd c ph ser a w)) -> calm (tuple_loop E cs ph ser anc i v).
Proof.
  intros [l Hv]. revert i. induction cs as [|c cs IH]; intros i Hc; cbn [tuple_loop]; [discriminate|].
  assert (Hp : py_index E v i = match nth_error l i with Some x => Ok x | None => py IndexError end
               /\ parts_of v = l) by (destruct Hv as [-> | ->]; auto).
  destruct Hp as [Hi Hl]. rewrite Hi. destruct (nth_error l i) as [u|] eqn:Hn; [|discriminate].
  apply calm_bind; [discriminate|]. intros u' [= <-].
  apply calm_bind; [apply step_calm, Hc; [left; reflexivity|rewrite Hl; eapply nth_error_In, Hn]|]. intros x _.
  apply calm_bind; [apply IH; intros; apply Hc; [right|]; assumption|]. discriminate.
Qed.

Lemma union_calm (cs : list child) ph ser anc v :
  (forall c a, In c cs -> calm (snd c ph ser a v)) -> calm (union_loop E cs ph ser anc v).
Proof.
  induction cs as [|c cs IH]; intros Hc; cbn [union_loop]; [discriminate|].
  assert (Hw := wrap_calm (fst c) _ (Hc c anc (or_introl eq_refl))).
  destruct (wrap_undef E (fst c) (snd c ph ser anc v)) as [r|[e|y]]; [apply calm_Ok| |exact Hw].
  destruct (er_cls e); try discriminate. apply IH. intros; apply Hc; right; assumption.
Qed.

Lemma map_calm (cv : child) (ck : option child) ph ser anc items acc b :
  (forall a k v, In (k, v) items -> calm (snd cv ph ser a v)) ->
  (forall c a k v, ck = Some c -> In (k, v) items -> calm (snd c ph ser a k)) ->
  calm (map_loop E cv ck ph ser anc items acc b).
Proof.
  revert acc b. induction items as [|[k v] items IH]; intros acc b Hv Hk; cbn [map_loop]; [discriminate|].
  apply calm_bind.
  - destruct ck as [c|]; [|destruct k; discriminate]. apply calm_bind; [apply key_calm|]. intros seg _.
    assert (H := Hk c (anc ++ [seg]) k v eq_refl (or_introl eq_refl)).
    destruct (snd c ph ser (anc ++ [seg]) k) as [r|[e|y]]; [discriminate|discriminate|exact H].
  - intros k' _. apply calm_bind; [apply key_calm|]. intros seg _.
    apply calm_bind; [eapply step_calm, Hv; left; reflexivity|]. intros x _.
    destruct (hashable k'); [|discriminate].
    apply IH; intros; [eapply Hv; right; eassumption|eapply Hk; [eassumption|right; eassumption]].
Qed.

Lemma required_calm anc req acc b : calm (map_required E anc req acc b).
Proof. intros H. apply map_required_py in H. destruct H. discriminate. Qed.

(** A value the structure may give to one of its fields. *)
Definition given (items : list (val * val)) (c : child) (w : val) : Prop :=
  (exists k, In (k, w) items)
  \/ exists q, fparams E (fst c) = Some q /\ p_default q = w /\ p_default q <> VNone.

Lemma struct_calm (defn : list (str * child)) items partial ph ser anc order names acc b :
  (forall k c a w, In (k, c) defn -> given items c w -> calm (snd c ph ser a w)) ->
  calm (struct_loop E defn items partial ph ser anc order names acc b).
Proof.
  intros Hc. revert names acc b. induction order as [|k order IH]; intros names acc b; cbn [struct_loop]; [discriminate|].
  destruct (aget k defn) as [c|] eqn:Hg; [|discriminate]. apply aget_In in Hg.
  apply calm_bind.
  - unfold decide. destruct (if kmem k names then sget k items else None); [discriminate|].
    destruct partial; [discriminate|]. destruct (fparams E (fst c)) as [q|]; [|discriminate].
    destruct (_ && _); [discriminate|]. destruct (p_required q); discriminate.
  - intros d Hd. destruct d as [| |v]; try apply IH.
    destruct (fparams E (fst c)) as [q|] eqn:Hq; [|discriminate].
    destruct (p_ignore_null q && is_none v); [apply IH|].
    apply calm_bind; [|intros; apply IH]. apply step_calm. eapply Hc; [exact Hg|].
    unfold decide in Hd. destruct (kmem k names).
    + destruct (sget k items) as [w|] eqn:Hs.
      * injection Hd as ->. left. eexists; eapply sget_In, Hs.
      * destruct partial; [discriminate|]. rewrite Hq in Hd.
        destruct (phase_eqb ph Inbound && negb (is_none (p_default q))) eqn:Hn.
        -- injection Hd as <-. right. exists q. repeat split; [exact Hq|]. intros Hz. rewrite Hz, andb_false_r in Hn. discriminate.
        -- destruct (p_required q); discriminate.
    + destruct partial; [discriminate|]. rewrite Hq in Hd.
      destruct (phase_eqb ph Inbound && negb (is_none (p_default q))) eqn:Hn.
      * injection Hd as <-. right. exists q. repeat split; [exact Hq|]. intros Hz. rewrite Hz, andb_false_r in Hn. discriminate.
      * destruct (p_required q); discriminate.
Qed.

Lemma struct_run_calm (defn : list (str * child)) strict ko ident partial ph ser anc items :
  (forall k c a w, In (k, c) defn -> given items c w -> calm (snd c ph ser a w)) ->
  calm (struct_run E defn strict ko ident partial ph ser anc items).
Proof.
  intros Hc. unfold struct_run. apply calm_bind.
  - destruct ko as [[|o os]|]; try discriminate. unfold poly_order. destruct (truthy ident); [|discriminate].
    destruct ident; try discriminate;
      (destruct (_ <? 0)%Z; [discriminate|]; destruct (nth_error _ _); discriminate).
  - intros order _. apply calm_bind; [apply struct_calm, Hc|]. intros [[names acc'] valid] _.
    cbn zeta. destruct (_ && _); discriminate.
Qed.
End Calm.

(** What a field may be asked to process while its parent processes [v]. *)
Definition asked E (k : kindP val child) (v : val) (c : child) (w : val) : Prop :=
  match k with
  | KUnion _ => w = v
  | KStructure _ _ _ => In w (parts_of v) \/ exists q, fparams E (fst c) = Some q /\ p_default q = w /\ p_default q <> VNone
  | _ => In w (parts_of v)
  end.

Lemma subfields_kmap_gen {F G} (g : F -> G) (k : kindP val F) : subfields (kmap g k) = map g (subfields k).
Proof.
  destruct k as [ | | | | | | | | | | | |value [key|] rk| |item a b u|d s o| | | | |l|l| ]; cbn; try reflexivity.
  destruct d as [l|on l]; cbn; [rewrite !map_map; reflexivity|]. f_equal.
  induction l as [|[w d] l IH]; cbn; [reflexivity|]. rewrite map_app, <- IH, !map_map. reflexivity.
Qed.

Lemma in_vals {A} (l : list (A * val)) k w : In (k, w) l -> In w (map snd l).
Proof. intros H. apply in_map_iff. exists (k, w). auto. Qed.
Lemma in_keys {A} (l : list (val * A)) k w : In (k, w) l -> In k (map fst l).
Proof. intros H. apply in_map_iff. exists (k, w). auto. Qed.

Lemma as_dict_parts v items : as_dict v = Some items -> parts_of v = map fst items ++ map snd items.
Proof. destruct v; cbn; intros H; try discriminate; injection H as ->; reflexivity. Qed.

Lemma find_In {A} (P : A -> bool) l x : find P l = Some x -> In x l.
Proof. apply find_some. Qed.

Lemma body_calm E desc recon sub p (k : kindP val child) partial ph ser anc v :
  (basic k = true \/ p_preprocessor p = None) ->
  match k with
  | KSurrogate _ =>
      forall items, as_dict v = Some items ->
        (forall d, In (VStr $"__schema__", d) items -> calm (recon d))
        /\ forall g a l, incl l items ->
             (exists impl, In g (e_schemas E impl)) \/ (exists d, In (VStr $"__schema__", d) items /\ recon d = Ok g)
             \/ (exists i z l, v = VSurr i (Some g) z l) ->
             calm (sub g ph true a (VDict false l))
  | _ => True
  end ->
  (forall f, calm (desc f)) ->
  (forall c a w, In c (subfields k) -> asked E k v c w -> calm (snd c ph ser a w)) ->
  calm (process_body E desc recon sub p k partial ph ser anc v).
Proof.
  intros Hpre Hk Hd Hc. unfold process_body.
  set (anc' := match anc with [] => _ | _ => _ end). clearbody anc'.
  destruct (basic k) eqn:Hb.
  - assert (Hs : process_body E desc recon sub p k partial ph ser anc v =
       process_scalar E p k (unserialize_value E recon k) (serialize_value E desc k) ph ser
         match anc with [] => [guaranteed_name p (kind_type k)] | _ => anc end v)
      by (destruct k; try discriminate Hb; reflexivity).
    intros H.
    assert (Hr : process_scalar E p k (unserialize_value E recon k) (serialize_value E desc k) ph ser anc' v
                 = Raise (XPy RecursionError)) by (destruct k; try discriminate Hb; exact H).
    apply scalar_py in Hr; [|exact Hb]. destruct Hr as [[_ Hr]|Hr]; [discriminate|].
    destruct k; try contradiction Hr; try (destruct Hr as [_ Hr]; discriminate);
      try (destruct Hr as [_ [_ Hr]]; discriminate).
    + destruct Hr as [Hr|[_ Hr]]; discriminate.
    + destruct Hr as [_ [_ [f Hf]]]. exact (Hd f Hf).
    + destruct Hr as [[_ Hr]|[_ Hr]]; discriminate.
  - destruct Hpre as [Hp|Hp]; [discriminate|].
    assert (Hraw : forall w, pre_raw E p w = Ok w) by (intros w; unfold pre_raw; rewrite Hp; reflexivity).
    destruct k as [ | | | | | | | | | | | |cv ck rk| |c mn mx u|d strict order|valid| | | |cs|cs| ]; try discriminate Hb.
    + unfold process_map. apply calm_bind; [apply null_calm|]. intros [|] _; [discriminate|].
      destruct (as_dict v) as [items|] eqn:Hv; [|discriminate]. rewrite Hraw. cbn [bind]. rewrite Hv.
      apply as_dict_parts in Hv.
      apply calm_bind; [|intros r _; apply calm_bind; [destruct rk; [apply required_calm|discriminate]|];
        intros r2 _; destruct (snd r2); discriminate].
      apply map_calm.
      * intros a x y Hx. apply Hc; [destruct ck; left; reflexivity|]. cbn. rewrite Hv. apply in_or_app. right. eapply in_vals, Hx.
      * intros c a x y -> Hx. apply Hc; [right; left; reflexivity|]. cbn. rewrite Hv. apply in_or_app. left. eapply in_keys, Hx.
    + unfold process_sequence. apply calm_bind; [apply null_calm|]. intros [|] _; [discriminate|].
      destruct v; try discriminate. rewrite Hraw. cbn [bind py_iter].
      destruct (below _ _ _); [discriminate|]. destruct (above _ _ _); [discriminate|].
      apply calm_bind.
      * apply seq_calm. intros a w Hw. apply Hc; [left; reflexivity|exact Hw].
      * intros r _. destruct (negb (snd r)); [discriminate|]. destruct u; [|discriminate].
        destruct (forallb hashable (fst r)); [|discriminate]. destruct (has_dup _ _); discriminate.
    + unfold process_structure. apply calm_bind; [apply null_calm|]. intros [|] _; [discriminate|].
      destruct (as_dict v) as [items|] eqn:Hv; [|discriminate]. rewrite Hraw. cbn [bind]. rewrite Hv.
      apply as_dict_parts in Hv.
      assert (Hrun : forall defn strict ko ident, (forall x c, In (x, c) defn -> In c (sdef_fields d)) ->
        calm (struct_run E defn strict ko ident partial ph ser anc' items)).
      { intros defn st ko ident Hin. apply struct_run_calm. intros x c a w Hx Hg. apply Hc; [eapply Hin, Hx|].
        cbn. destruct Hg as [[y Hy]|Hg]; [left|right; exact Hg]. rewrite Hv. apply in_or_app. right. eapply in_vals, Hy. }
      destruct d as [defn|on variants].
      * apply Hrun. intros x c Hx. cbn. apply in_map_iff. exists (x, c). auto.
      * destruct (fparams E (fst on)) as [q|]; [|discriminate].
        set (found := match p_name q with Some n => _ | None => _ end).
        destruct found as [ident|] eqn:Hf; [|discriminate].
        destruct (p_name q) as [nm|] eqn:Hn; [|destruct ident; discriminate].
        assert (Hon : calm (do ident' <- snd on ph ser (anc' ++ [$"." ++ nm]) ident;
           (if hashable ident' then
              match find (fun vd => veq (e_local E) (fst vd) ident') variants with
              | Some (_, (kf :: rest)) => struct_run E (kf :: rest) strict order ident' partial ph ser anc' items
              | _ => verr anc' $"unrecognized"
              end
            else py TypeError))).
        { apply calm_bind.
          - apply Hc; [left; reflexivity|]. cbn. left. subst found. apply sget_In in Hf. rename Hf into Hy.
            rewrite Hv. apply in_or_app. right. eapply in_vals, Hy.
          - intros w _. destruct (hashable w); [|discriminate].
            destruct (find _ variants) as [[y [|kf rest]]|] eqn:Hfi; try discriminate.
            apply find_In in Hfi. apply Hrun. intros x c Hx. cbn. right.
            apply in_flat_map. exists (y, kf :: rest). split; [exact Hfi|]. cbn [snd]. apply in_map_iff. exists (x, c). auto. }
        destruct ident; try discriminate; exact Hon.
    + intros H. destruct ser.
      * apply surrogate_ser_py in H. destruct H as [[_ [_ H]]|[[_ [H|H]]|[H|[g [a [l [Hg [Hl H]]]]]]]]; try discriminate.
        -- destruct ph; [destruct H as [H|[H|[items [d [Hi [Hd' H]]]]]]|destruct H as [H|[H|[H|[f H]]]]]; try discriminate.
           ++ exact (proj1 (Hk items Hi) d Hd' H).
           ++ exact (Hd f H).
        -- destruct Hl as [Hl|[items [Hi Hl]]]; [contradiction|].
           apply (proj2 (Hk items Hi) g a l Hl); [|exact H].
           destruct Hg as [Hg|Hg]; [left; exact Hg|right]. destruct ph.
           ++ left. destruct Hg as [items' [d [Hi' Hg]]]. rewrite Hi in Hi'. injection Hi' as <-. exists d. exact Hg.
           ++ right. destruct Hg as [Hg|Hg]; [contradiction|exact Hg].
      * apply surrogate_py in H. destruct H as [[_ H]|[_ [H|H]]]; discriminate.
    + unfold process_tuple. apply calm_bind; [apply null_calm|]. intros [|] _; [discriminate|].
      assert (Ht : forall w, (exists l, w = VList l \/ w = VTuple l) -> w = v ->
        calm (do r <- tuple_loop E cs ph ser anc' 0 w; (if snd r then Ok (VTuple (fst r)) else serr anc' (VList (fst r))))).
      { intros w Hw ->. apply calm_bind; [|intros r _; destruct (snd r); discriminate].
        apply tuple_calm; [exact Hw|]. intros c a y Hcs Hy. apply Hc; [exact Hcs|exact Hy]. }
      destruct v; try discriminate; rewrite Hraw; cbn [bind py_iter];
        (destruct (Nat.eqb _ _); [|discriminate]; apply Ht; [eauto|reflexivity]).
    + unfold process_union. apply calm_bind; [apply null_calm|]. intros [|] _; [discriminate|].
      apply union_calm. intros c a Hcs. apply Hc; [exact Hcs|reflexivity].
Qed.

(** ** Enough fuel *)

Section Ends.
Variable E : env.
Variable desc : field -> res val.
Variable recon : val -> res field.
Variable rank : nat -> nat.
Variable ranks : nat.
Hypothesis Hguard : guarded E rank ranks.
Hypothesis Hdesc : forall f, calm (desc f).
Hypothesis Hdefs : forall i g, e_undef E i = Some g -> everywhere (works_inward E) g.
Local Notation proc := (process_gen E desc recon).

(** The schemas met in [v] are in order, or none is met. *)
Definition prepared (f : field) (v : val) : Prop :=
  throughout E no_surrogate f
  \/ (forall g, schema_within E recon v g -> inward_schema E g) /\ (forall d, inside v d -> calm (recon d)).

Lemma within_trans u v w : within u v -> within v w -> within u w.
Proof. intros Hu Hv. induction Hv as [|x y Hx IH Hy]; [exact Hu|]. eapply within_part; eassumption. Qed.

Lemma schema_smaller v w g : (forall x, within w x -> within v x) ->
  schema_within E recon w g -> schema_within E recon v g.
Proof.
  intros H [Hg|[[d [[u [Hu Hd]] Hg]]|[i [z [l Hg]]]]]; [left; exact Hg|right; left|right; right; eauto].
  exists d. split; [exists u; auto|exact Hg].
Qed.

Lemma prepared_smaller f g v w : (forall x, within w x -> within v x) ->
  (everywhere no_surrogate f -> everywhere no_surrogate g) -> prepared f v -> prepared g w.
Proof.
  intros H Hfg [[H1 H2]|[H1 H2]]; [left; split; auto|right]. split; [|intros d [u [Hu Hd]]; apply H2; exists u; auto].
  intros g' Hg'. eapply H1, schema_smaller; eassumption.
Qed.

Lemma dict_within v items l w : as_dict v = Some items -> incl l items -> within (VDict false l) w ->
  w = VDict false l \/ within v w.
Proof.
  intros Hv Hl Hw. induction Hw as [|x y Hx IH Hy]; [left; reflexivity|right].
  destruct IH as [->|IH]; [|eapply within_part; eassumption].
  eapply within_part; [apply within_here|]. rewrite (as_dict_parts _ _ Hv). cbn [parts_of] in Hy.
  apply in_app_or in Hy. apply in_or_app.
  destruct Hy as [Hy|Hy]; [left|right]; apply in_map_iff in Hy; destruct Hy as [z [<- Hz]]; apply in_map, Hl, Hz.
Qed.

Lemma dict_inside v items l w : as_dict v = Some items -> incl l items -> inside (VDict false l) w -> inside v w.
Proof.
  intros Hv Hl [u [Hu Hw]]. apply (dict_within v items l _ Hv Hl) in Hu. destruct Hu as [->|Hu]; [|exists u; auto].
  exists v. split; [apply within_here|]. rewrite (as_dict_parts _ _ Hv). cbn [parts_of] in Hw.
  apply in_app_or in Hw. apply in_or_app.
  destruct Hw as [Hw|Hw]; [left|right]; apply in_map_iff in Hw; destruct Hw as [z [<- Hz]]; apply in_map, Hl, Hz.
Qed.

Lemma dict_depth v items l : as_dict v = Some items -> incl l items -> (depth (VDict false l) <= depth v)%nat.
Proof.
  intros Hv Hl.
  assert (H : forall l', (forall w, In w (map fst l' ++ map snd l') -> (depth w < depth v)%nat) ->
            ((fix deepest l := match l with
                           | [] => O
                           | (a, b) :: l' => Nat.max (Nat.max (depth a) (depth b)) (deepest l')
                           end) l' < depth v)%nat).
  { assert (H0 : (0 < depth v)%nat) by (destruct v; try discriminate Hv; cbn [depth]; lia).
    induction l' as [|[a b] l' IH]; intros Hw; [exact H0|].
    assert (Ha := Hw a (or_introl eq_refl)). assert (Hb := Hw b ltac:(apply in_or_app; right; left; reflexivity)).
    assert (Hi : ((fix deepest l := match l with
                           | [] => O
                           | (a, b) :: l' => Nat.max (Nat.max (depth a) (depth b)) (deepest l')
                           end) l' < depth v)%nat).
    { apply IH. intros w Hin. apply Hw. apply in_app_or in Hin. apply in_or_app. destruct Hin; [left; right|right; right]; assumption. }
    lia. }
  cbn [depth]. apply H. intros w Hw. apply depth_parts. rewrite (as_dict_parts _ _ Hv).
  apply in_app_or in Hw. apply in_or_app.
  destruct Hw as [Hw|Hw]; [left|right]; apply in_map_iff in Hw; destruct Hw as [z [<- Hz]]; apply in_map, Hl, Hz.
Qed.

Definition direct (f : field) : Prop :=
  exists p k, f = Fld p k /\ match k with KUnion _ | KSurrogate _ => False | _ => True end.

Lemma enough f :
  forall n bound sur v partial ph ser anc,
  everywhere (works_inward E) f ->
  (complete f /\ everywhere no_surrogate f)
  \/ (prepared f v /\ (forall j, exposed f j -> (rank j < bound)%nat) /\ (bound <= ranks)%nat
      /\ (sur = 1%nat \/ direct f) /\ (S ranks * depth v + bound + sur <= n)%nat) ->
  calm (proc n f partial ph ser anc v).
Proof.
  intros n. revert f. induction n as [n IHn] using (well_founded_induction Wf_nat.lt_wf).
  intros f. induction f as [i|p k IH] using field_ind'; intros bound sur v partial ph ser anc Hw Hf.
  - destruct Hf as [[Hf _]|[Hp [Hx [Hb [Hsur Hn]]]]]; [inversion Hf|].
    destruct Hsur as [->|[q [k [Hsur _]]]]; [|discriminate].
    rewrite process_FUndef. destruct (e_undef E i) as [g|] eqn:Hi; [|discriminate].
    assert (Hr := Hx i (exposed_here i)).
    assert (Hg := Hdefs _ _ Hi).
    assert (Hr' := fun j => proj2 Hguard i g j Hi).
    destruct g as [j|q k]; [discriminate|].
    destruct n as [|m]; [lia|].
    apply (IHn m (Nat.lt_succ_diag_r m) _ (rank i) 1%nat); [exact Hg|]. right.
    split; [|split; [exact Hr'|split; [lia|split; [left; reflexivity|lia]]]].
    destruct Hp as [[H1 H2]|Hp]; [left; split; [apply (H2 _ _ Hi)|exact H2]|right; exact Hp].
  - rewrite process_Fld. inversion Hw as [|p' k' [Hpre Hk] Hsub]; subst.
    apply body_calm; [destruct k; exact Hpre| |exact Hdesc|].
    { destruct k; try exact I. cbn [kmap]. destruct Hf as [[_ Hf]|[Hp [Hx [Hb [Hsur Hn]]]]].
      { inversion Hf as [|p' k' Hns _]; subst. destruct Hns. }
      destruct Hp as [[Hp _]|[Hp Hr]]; [inversion Hp as [|p' k' Hns _]; subst; destruct Hns|].
      destruct Hsur as [->|[q [k [[= <- <-] []]]]].
      intros items Hi.
      assert (Hin : forall x y, In (x, y) items -> inside v y).
      { intros x y Hy. exists v. split; [apply within_here|]. rewrite (as_dict_parts _ _ Hi).
        apply in_or_app. right. eapply in_vals, Hy. }
      split; [intros d Hd; eapply Hr, Hin, Hd|]. intros g a l Hl Hg.
      unfold sub_of. destruct n as [|m]; [lia|].
      assert (Hg' : schema_within E recon v g).
      { destruct Hg as [Hg|[[d [Hd Hg]]|[i [z [l' ->]]]]]; [left; exact Hg|right; left; exists d; eauto|].
        right. right. exists i, z, l'. apply within_here. }
      destruct (Hp g Hg') as [Hdir Hev].
      assert (Hdep := dict_depth v items l Hi Hl).
      apply (IHn m (Nat.lt_succ_diag_r m) g 0%nat 0%nat); [exact Hev|]. right. split; [|split; [|split; [lia|split; [right; exact Hdir|nia]]]].
      - right. split.
        + intros g' [Hg1|[[d [Hd Hg1]]|[i [z [l' Hg1]]]]]; apply Hp.
          * left. exact Hg1.
          * apply (dict_inside v items l _ Hi Hl) in Hd. right. left. eauto.
          * apply (dict_within v items l _ Hi Hl) in Hg1. destruct Hg1 as [Hg1|Hg1]; [discriminate|]. right. right. eauto.
        + intros d Hd. apply (dict_inside v items l _ Hi Hl) in Hd. auto.
      - destruct Hdir as [q [k [-> Hk']]]. intros j Hj. inversion Hj; subst. destruct Hk'. }
    intros c a w Hin Hask.
    assert (Hsk : In c (map (fun g => (g, proc n g false)) (subfields k))) by (rewrite <- subfields_kmap_gen; exact Hin).
    apply in_map_iff in Hsk. destruct Hsk as [g [<- Hg]]. cbn [snd].
    destruct Hf as [[Hf Hns]|[Hp [Hx [Hb [Hsur Hn]]]]].
    + inversion Hf as [p' k' Hcs]; subst. inversion Hns as [|p' k' _ Hns']; subst.
      eapply (IH g Hg 0%nat 0%nat); [apply Hsub, Hg|left; split; [apply Hcs, Hg|apply Hns', Hg]].
    + assert (Hev : everywhere no_surrogate (Fld p k) -> everywhere no_surrogate g).
      { intros H. inversion H as [|p' k' _ H']; subst. apply H', Hg. }
      assert (Hpart : In w (parts_of v) -> calm (proc n g false ph ser a w)).
      { intros Hw'. assert (Hd := depth_parts _ _ Hw'). apply (IH g Hg ranks 1%nat); [apply Hsub, Hg|]. right.
        split; [|split; [intros j _; apply Hguard|split; [lia|split; [left; reflexivity|nia]]]].
        eapply prepared_smaller; [|exact Hev|exact Hp]. intros x. apply within_trans.
        eapply within_part; [apply within_here|exact Hw']. }
      destruct k as [ | | | | | | | | | | | |cv ck rk| |c mn mx u|d strict order| | | | |cs|cs| ]; cbn [kmap asked] in Hask;
        try (apply Hpart; exact Hask).
      * destruct Hask as [Hask|[q [Hq [Hd Hne]]]]; [apply Hpart; exact Hask|].
        destruct (Hk g q Hg) as [Hz|Hcg]; [apply fparams_defined_as; exact Hq|contradiction|].
        apply (IH g Hg 0%nat 0%nat); [apply Hsub, Hg|left; exact Hcg].
      * subst w. destruct Hsur as [->|[q [k [[= <- <-] []]]]].
        apply (IH g Hg bound 1%nat); [apply Hsub, Hg|]. right.
        split; [eapply prepared_smaller; [|exact Hev|exact Hp]; auto|]. split; [|auto].
        intros j Hj. apply Hx. econstructor; eassumption.
Qed.
End Ends.

(** @prop C93 A schema may refer to itself through placeholders.  If no placeholder leads back to
    itself through Unions alone, every field works on its value as it is, and so do the schemas of the
    surrogates in the value, then processing ends with an outcome other than RecursionError; and the
    recursion it takes grows no faster than the nesting of the value. *)
Lemma recursion_ends_partial :
  forall E desc recon rank ranks f v,
    guarded E rank ranks ->
    throughout E (works_inward E) f ->
    (forall g, desc g <> Raise (XPy RecursionError)) ->
    throughout E no_surrogate f
    \/ ((forall g, schema_within E recon v g -> inward_schema E g)
        /\ forall d, inside v d -> recon d <> Raise (XPy RecursionError)) ->
    forall partial ph ser anc n,
      (S ranks * S (depth v) <= n)%nat ->
      settles E desc recon f partial ph ser anc v (process_gen E desc recon n f partial ph ser anc v).
Proof.
  intros E desc recon rank ranks f v Hg [Hf Hdefs] Hd Hp partial ph ser anc n Hn.
  split; [|exists n; reflexivity].
  apply (enough E desc recon rank ranks Hg Hd Hdefs f n ranks 1%nat); [exact Hf|].
  right. split; [exact Hp|]. split; [intros j _; apply Hg|]. split; [lia|]. split; [left; reflexivity|].
  rewrite Nat.mul_succ_r in Hn. lia.
Qed.

(** @example
(* {'value': Integer(), 'next': Undefined()} with the placeholder standing for the structure itself:
   a linked list of any length. *)
Definition C93_chain := Fld p0 (KStructure (SPlain [($"value", Fld p0 (KInteger None None)); ($"next", FUndef 0)]) true None).
Definition C93_env := with_undef env0 (fun i => match i with O => Some C93_chain | _ => None end).
Fixpoint C93_links (n : nat) : val :=
  match n with O => VNone | S m => VDict false [(VStr $"value", VInt (Z.of_nat m)); (VStr $"next", C93_links m)] end.
Example C93_example :
  guarded C93_env (fun _ => O) 1 /\ throughout C93_env (works_inward C93_env) C93_chain
  /\ depth (C93_links 3) = 3%nat
  /\ settles C93_env nodesc norecon C93_chain false Inbound true [] (C93_links 3) (Ok (C93_links 3)).
Proof.
  assert (Hw : everywhere (works_inward C93_env) C93_chain).
  { constructor.
    - split; [right; reflexivity|]. intros f q [<-|[<-|[]]]; cbn.
      + intros <-. left. reflexivity.
      + intros [k [= <- _]]. left. reflexivity.
    - intros g [<-|[<-|[]]]; constructor; [split; [left; reflexivity|exact I]|intros g []]. }
  split; [split; [intros i; repeat constructor|]|split; [split; [exact Hw|]|split; [reflexivity|]]].
  - intros [|i] g j; [|discriminate]. intros [= <-] H. inversion H.
  - intros [|i] g; [|discriminate]. intros [= <-]. exact Hw.
  - split; [discriminate|]. exists 4%nat. vm_compute. reflexivity.
Qed.
@end *)

(** @example
(* Surrogates of a class whose schema has a surrogate for its entry [next]. *)
Definition C93_class : env :=
  {| e_pre := e_pre env0; e_ext := e_ext env0; e_inst := e_inst env0; e_pattern := e_pattern env0;
     e_local := e_local env0; e_pad := e_pad env0; e_udigit := e_udigit env0; e_uword := e_uword env0;
     e_ulower := e_ulower env0; e_import := e_import env0; e_identify := e_identify env0;
     e_undef := e_undef env0; e_str := e_str env0; e_impl := fun _ => 1%nat;
     e_schemas := fun i => match i with 1%nat => [Fld p0 (KStructure (SPlain [($"next", Fld p0 (KSurrogate None))]) true None)] | _ => [] end;
     e_compile := e_compile env0; e_repr := e_repr env0; e_surrogate := e_surrogate env0;
     e_identity := e_identity env0 |}.
Example C93_surrogates_example :
  let f := Fld p0 (KSurrogate None) in
  let inner := VDict false [(VStr $"_", VStr $"x")] in
  let v := VDict false [(VStr $"_", VStr $"x"); (VStr $"next", inner)] in
  (forall g, schema_within C93_class norecon v g -> inward_schema C93_class g)
  /\ throughout C93_class (works_inward C93_class) f
  /\ process_gen C93_class nodesc norecon 3 f false Inbound true [] v
     = Ok (VSurr 1 None (Some 1%Z) [(VStr $"next", VSurr 1 None (Some 1%Z) [])]).
Proof.
  intros f inner v. split; [|split; [|vm_compute; reflexivity]].
  - assert (Hall : forall w, within v w -> In w [v; inner; VStr $"_"; VStr $"x"; VStr $"next"]).
    { intros w Hw. induction Hw as [|u w Hu IH Hw]; [left; reflexivity|].
      repeat destruct IH as [<-|IH]; try contradiction; cbn in Hw; repeat destruct Hw as [<-|Hw]; try contradiction; cbn; auto 10. }
    intros g [[i Hi]|[[d [_ Hd]]|[i [z [l Hl]]]]].
    + destruct i as [|[|i]]; cbn in Hi; [contradiction| |contradiction]. destruct Hi as [<-|[]]. split; [eexists; eexists; split; [reflexivity|exact I]|].
      constructor; [split; [right; reflexivity|]|].
      * intros h q [<-|[]] <-. left. reflexivity.
      * intros h [<-|[]]. constructor; [split; [right; reflexivity|exact I]|intros ? []].
    + discriminate.
    + exfalso. apply Hall in Hl. repeat destruct Hl as [Hl|Hl]; discriminate || contradiction.
  - split; [|discriminate]. constructor; [split; [right; reflexivity|exact I]|intros ? []].
Qed.
@end *)

(** @prop C93 In general processing need not end: a Union whose alternative stands for the Union
    itself recurses forever on every value but None, and so does a structure with an entry that
    stands for the structure and has the empty dict for default. *)
Lemma recursion_ends_refuted :
  (exists E f, forall desc recon n partial ph ser anc v,
     v <> VNone ->
     process_gen E desc recon n f partial ph ser anc v = Raise (XPy RecursionError))
  /\ exists E f, forall desc recon n ser anc,
     process_gen E desc recon n f false Inbound ser anc (VDict false []) = Raise (XPy RecursionError).
Proof.
  set (u := Fld p0 (KUnion [FUndef 0])).
  set (s := Fld (p_def (VDict false [])) (KStructure (SPlain [($"next", FUndef 0)]) true None)).
  split.
  - exists (with_undef env0 (fun _ => Some u)), u.
    intros desc recon n. induction n as [|n IH]; intros partial ph ser anc v Hv.
    + unfold u. rewrite process_Fld. cbn [kmap map process_body].
      unfold process_union, is_null. cbn [bind kind_ignored]. destruct v; try contradiction; cbn; reflexivity.
    + unfold u. rewrite process_Fld. cbn [kmap map process_body].
      unfold process_union.
      assert (Hn : forall a, is_null (e_local (with_undef env0 (fun _ => Some u))) p0 None a v = Ok false)
        by (intros a; destruct v; try contradiction; reflexivity).
      rewrite Hn. cbn [bind union_loop fst snd]. rewrite process_FUndef. cbn [with_undef e_undef].
      change (Some u) with (Some (Fld p0 (KUnion [FUndef 0]))). cbn iota. fold u. rewrite IH by exact Hv. reflexivity.
  - exists (with_undef env0 (fun _ => Some s)), s.
    intros desc recon n. induction n as [|n IH]; intros ser anc.
    + unfold s. rewrite process_Fld. reflexivity.
    + unfold s at 2. rewrite process_Fld.
      change (kmap (fun g => (g, process_gen (with_undef env0 (fun _ => Some s)) desc recon (S n) g false))
                (KStructure (SPlain [($"next", FUndef 0)]) true None))
        with (@KStructure val child (SPlain [($"next", (FUndef 0, process_gen (with_undef env0 (fun _ => Some s)) desc recon (S n) (FUndef 0) false))]) true None).
      unfold process_body, process_structure.
      set (a := match anc with [] => _ | _ => _ end). clearbody a.
      assert (Hl : forall b, process_gen (with_undef env0 (fun _ => Some s)) desc recon (S n) (FUndef 0) false Inbound ser b (VDict false [])
                 = Raise (XPy RecursionError)).
      { intros b. rewrite process_FUndef. change (e_undef (with_undef env0 (fun _ => Some s)) 0) with (Some s).
        apply IH. }
      revert Hl. generalize (process_gen (with_undef env0 (fun _ => Some s)) desc recon (S n) (FUndef 0) false).
      intros c Hl. clear -Hl.
      transitivity (bind (collect (wrap_undef (with_undef env0 (fun _ => Some s)) (FUndef 0) (c Inbound ser (a ++ [$"." ++ $"next"]) (VDict false []))))
        (fun x => if snd x then Ok (VDict false [(VStr $"next", fst x)]) else serr a (VDict false [(VStr $"next", fst x)]))).
      * cbv [bind is_null p_def p0 with_undef e_local env0 pre_raw p_preprocessor]. cbn.
        rewrite Hl. reflexivity.
      * rewrite Hl. reflexivity.
Qed.

(** @example
Example C93_cycle_example :
  forall n, run0 (Fld p0 (KUnion [FUndef 0])) Inbound true VNone = Ok VNone
    /\ process_gen (with_undef env0 (fun _ => Some (Fld p0 (KUnion [FUndef 0])))) nodesc norecon n
         (FUndef 0) false Inbound true [] VNone = match n with O => Raise (XPy RecursionError) | _ => Ok VNone end.
Proof. intros [|n]; (split; [vm_compute; reflexivity|]); [reflexivity|destruct n; reflexivity]. Qed.
@end *)

(** A surrogate whose schema has a surrogate of the same class for default. *)
Definition again_token : val := VDict false [(VStr $"_", VStr $"x")].
Definition again : field := Fld (p_def again_token) (KSurrogate None).
Definition env_again : env :=
  {| e_pre := e_pre env0; e_ext := e_ext env0; e_inst := e_inst env0; e_pattern := e_pattern env0;
     e_local := e_local env0; e_pad := e_pad env0; e_udigit := e_udigit env0; e_uword := e_uword env0;
     e_ulower := e_ulower env0; e_import := e_import env0; e_identify := e_identify env0;
     e_undef := e_undef env0; e_str := e_str env0; e_impl := fun _ => 1%nat;
     e_schemas := fun i => match i with 1%nat => [Fld p0 (KStructure (SPlain [($"next", again)]) true None)] | _ => [] end;
     e_compile := e_compile env0; e_repr := e_repr env0; e_surrogate := e_surrogate env0;
     e_identity := e_identity env0 |}.

(** @prop C93 Without any placeholder a surrogate may recurse forever: when the schema of its class
    has an entry whose default is a surrogate of that class. *)
Lemma surrogate_recursion_refuted :
  exists E f, complete f /\ forall desc recon n anc,
    process_gen E desc recon n f false Inbound true anc (VDict false [(VStr $"_", VStr $"x")])
    = Raise (XPy RecursionError).
Proof.
  exists env_again, again. split; [constructor; intros g []|]. intros desc recon n.
  induction n as [|n IH]; intros anc.
  - unfold again. rewrite process_Fld. destruct anc; reflexivity.
  - unfold again at 1. rewrite process_Fld. unfold process_body. set (a := match anc with [] => _ | _ => _ end). clearbody a.
    cbn [kmap].
    assert (H : sub_of env_again desc recon (S n) (Fld p0 (KStructure (SPlain [($"next", again)]) true None)) Inbound true a (VDict false [])
                = Raise (XPy RecursionError)).
    { cbn [sub_of]. rewrite process_Fld. cbn [kmap sdef_map map fst snd]. revert IH.
      change (VDict false [(VStr $"_", VStr $"x")]) with again_token.
      generalize (process_gen env_again desc recon n again false). intros c IH. destruct a as [|a0 a]; cbn; rewrite IH; reflexivity. }
    revert H. generalize (sub_of env_again desc recon (S n)). intros c H. cbn in H |- *. rewrite H. reflexivity.
Qed.

(** @example
(* Not with another default. *)
Example C93_surrogate_recursion_example :
  process_gen env_again nodesc norecon 5 again false Inbound true []
    (VDict false [(VStr $"_", VStr $"x"); (VStr $"next", VNone)])
  = Ok (VSurr 1 None (Some 1%Z) [(VStr $"next", VNone)]).
Proof. vm_compute. reflexivity. Qed.
@end *)
