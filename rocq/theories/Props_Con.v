(** Property theorems proved in ConProofs.v (generated by tools/mkprops.py). *)
From Verif Require Import ConSpec CalSpec Demo ConProofs.

(** C52.  When the parameters common to all classes are acceptable, a constructor accepts exactly
    the documented types of its own parameters. *)
Theorem C52_constructors_accept :
  forall E cl c kw,
    c <> CStructure -> c <> CSurrogate ->
    (exists f, init E cl CField (others (class_args c) kw) = Ok f) ->
    ((exists f, init E cl c kw = Ok f) <-> documented E c kw).
Proof. exact constructors_accept. Qed.
Print Assumptions C52_constructors_accept.

Example C52_example :
  (exists f, init env0 (clone env0 3) CText [($"min_length", VInt 2); ($"pattern", VStr $"a+"); ($"help", VStr $"x")] = Ok f)
  /\ (~ exists f, init env0 (clone env0 3) CText [($"min_length", VInt (-2))] = Ok f)
  /\ (~ exists f, init env0 (clone env0 3) CTuple [($"values", VList [])] = Ok f).
Proof.
  split; [|split].
  - apply constructors_accept; [discriminate|discriminate|eexists; reflexivity|]. cbn. split; [split|].
    + right. left. exists 2%Z. split; [reflexivity|lia].
    + left. reflexivity.
    + right. right. exists $"a+". split; [reflexivity|discriminate].
  - rewrite constructors_accept; [|discriminate|discriminate|eexists; reflexivity]. cbn.
    intros [[[H|[[z [H Hz]]|[b H]]] _] _]; [discriminate| |discriminate]. injection H as <-. lia.
  - rewrite constructors_accept; [|discriminate|discriminate|eexists; reflexivity]. intros [_ H]. discriminate.
Qed.

(** C52.  [nonempty] makes a field required and nonnull; Binary, Text and Email then have a
    minimum length of one unless another one is given. *)
Theorem C52_nonempty_implies :
  forall E cl c kw p k,
    init E cl c kw = Ok (Fld p k) -> truthy (arg $"nonempty" kw) = true ->
    p_required p = true /\ p_nonnull p = true
    /\ match k with
       | KBinary mn _ | KText _ mn _ _ | KEmail _ _ mn _ =>
           match arg $"min_length" kw with
           | VNone => mn = Some 1%Z
           | VInt z => mn = Some z
           | VBool b => mn = Some (if b then 1 else 0)%Z
           | _ => False
           end
       | _ => True
       end.
Proof. exact nonempty_implies. Qed.
Print Assumptions C52_nonempty_implies.

Example C52_nonempty_example :
  exists p, init env0 (clone env0 3) CText [($"nonempty", VBool true)] = Ok (Fld p (KText None (Some 1%Z) None true))
            /\ p_required p = true /\ p_nonnull p = true.
Proof. eexists. split; [reflexivity|]. split; reflexivity. Qed.

(** C52.  What a constructor makes of sound parts is sound again: lengths are not negative,
    nothing is nested in the constant, fields of a structure have names, a polymorphic structure
    has a required discriminator which every variant contains with its identity as constant.
    This is what the claims about clones (C45) assume of a field.  The bounds of DateTime fields
    are left out. *)
Theorem C52_constructors_sound :
  forall E n c kw f,
    init E (clone E (S n)) c kw = Ok f -> arguments E n c kw ->
    (forall items, as_dict (arg $"structure" kw) = Some items -> NoDup (map fst items)) ->
    (c = CDateTime -> arg $"minimum" kw = VNone /\ arg $"maximum" kw = VNone) ->
    sound E f /\ within (S (S n)) f.
Proof. exact constructors_sound. Qed.
Print Assumptions C52_constructors_sound.

Example C52_sound_example :
  let kw := [($"structure", VDict false [(VStr $"a", VDict false [(VStr $"x", VField (Fld p0 (KInteger None None)))]);
                                   (VStr $"b", VDict false [(VStr $"x", VField (Fld p0 KBoolean))])]);
             ($"polymorphic_on", VStr $"type")] in
  exists f, init env0 (clone env0 2) CStructure kw = Ok f /\ sound env0 f.
Proof.
  intros kw. destruct (init env0 (clone env0 2) CStructure kw) as [f|e] eqn:Hf; [|vm_compute in Hf; discriminate].
  exists f. split; [reflexivity|]. refine (proj1 (constructors_sound env0 1 CStructure kw f Hf _ _ _)); clear f Hf.
  - assert (Hs : forall k, k = KInteger None None \/ k = KBoolean -> sound env0 (Fld p0 k) /\ within 1 (Fld p0 k)).
    { intros k [-> | ->]; split; try (intros g []); split; constructor; try (repeat split; exact I); intros g []. }
    intros key v [[= <- <-]|[[= <- <-]|[]]]; cbn [slots smem made_of].
    + split; [reflexivity|]. split; [split; [reflexivity|]; split; [apply Hs; auto|exact I]|].
      split; [reflexivity|]. split; [split; [reflexivity|]; split; [apply Hs; auto|exact I]|exact I].
    + exact I.
  - intros items [= <-]. repeat constructor; cbn; intuition discriminate.
  - discriminate.
Qed.

(** C45.  Cloning succeeds for every field whose parts are all there (no placeholders) and
    gives a field that validates exactly like the original with the given parameters replaced.
    Fuel bounds the nesting; some amount always suffices.  Missing: [sound] requires that the
    bounds of DateTime fields survive a conversion to their own zone, and the replacement of
    parameters that are fields or containers of fields is not covered. *)
Theorem C45_clone_replaces_partial :
  forall E p k kw,
    sound E (Fld p k) -> Forall (parameter k) kw ->
    exists N, forall n, (N <= n)%nat ->
      exists g, clone E n (Fld p k) kw = Ok g
        /\ alike g (Fld (replaced kw p) (rekind kw k))
        /\ forall desc recon m partial ph ser anc v,
             process_gen E desc recon m g partial ph ser anc v
             = process_gen E desc recon m (Fld (replaced kw p) (rekind kw k)) partial ph ser anc v.
Proof. exact clone_replaces_partial. Qed.
Print Assumptions C45_clone_replaces_partial.

Example C45_example :
  let s := KStructure (SPlain [($"a", Fld (p_named $"a") (KInteger (Some 1%Z) None))]) true None in
  exists N, forall n, (N <= n)%nat -> exists g, clone env0 n (Fld p0 s) [($"nonnull", VBool true); ($"strict", VBool false)] = Ok g
    /\ process_gen env0 nodesc norecon 5 g false Inbound false [] (VDict false [(VStr $"a", VInt 3); (VStr $"b", VInt 4)])
       = Ok (VDict false [(VStr $"a", VInt 3)])
    /\ process_gen env0 nodesc norecon 5 g false Inbound false [] VNone = fails [$"(structure)"] $"nonnull".
Proof.
  cbv zeta. destruct (clone_replaces_partial env0 p0 (KStructure (SPlain [($"a", Fld (p_named $"a") (KInteger (Some 1%Z) None))]) true None)
              [($"nonnull", VBool true); ($"strict", VBool false)]) as [N HN].
  - split; constructor; cbn [subfields sdef_fields map snd].
    + intros g [<-|[]]. constructor. intros h [].
    + split; [repeat split|]. split; [discriminate|]. constructor; [|constructor]. split; [discriminate|]. discriminate.
    + intros g [<-|[]]. constructor; [|intros h []]. split; [repeat split|exact I].
  - constructor; [left; cbn; auto|]. constructor; [right; cbn; split; [reflexivity|eauto]|constructor].
  - exists N. intros n Hn. destruct (HN n Hn) as [g [Hg [_ Hp]]]. exists g. split; [exact Hg|]. rewrite !Hp. split; vm_compute; reflexivity.
Qed.

(** C45.  The full claim fails for a bound that is a local wall time skipped by the change to
    summer time: the bound is converted once more when it is cloned, and the clone accepts a value
    the original rejects. *)
Theorem C45_clone_refuted :
  exists E f g v,
    clone E 1 f [] = Ok g
    /\ process_gen E nodesc norecon 1 f false Inbound false [] v = fails [$"(datetime)"] $"minimum"
    /\ process_gen E nodesc norecon 1 g false Inbound false [] v = Ok v.
Proof. exact clone_refuted. Qed.
Print Assumptions C45_clone_refuted.

(** C45.  Nor can a field be cloned that contains a placeholder which is not resolved: the copy
    recurses until the interpreter gives up, whatever the depth allowed. *)
Theorem C45_clone_placeholder_refuted :
  exists f, forall E n, e_undef E 0 = None -> clone E n f [] = py RecursionError.
Proof. exact clone_placeholder_refuted. Qed.
Print Assumptions C45_clone_placeholder_refuted.

(** C44.  The claim fails: reconstructing a field removes the entry ['fieldtype'] of the
    specification, so the same specification cannot be used again. *)
Theorem C44_reconstruct_refuted :
  exists E spec f,
    snd (reconstruct_st E 1 spec) = Ok f
    /\ fst (reconstruct_st E 1 spec) <> spec
    /\ snd (reconstruct_st E 1 (fst (reconstruct_st E 1 spec))) = py ValueError.
Proof. exact reconstruct_refuted. Qed.
Print Assumptions C44_reconstruct_refuted.

(** C44.  What does hold: nothing but entries ['fieldtype'] is ever removed from the
    specification, at any depth and whether or not the reconstruction succeeds.  When a
    reconstruction from a dict succeeds, all of them are gone and using the specification again
    raises ValueError.  Missing: the specification is not unchanged. *)
Theorem C44_reconstruct_effect_partial :
  forall E n spec,
    untyped (fst (reconstruct_st E n spec)) = untyped spec
    /\ forall o items f,
         spec = VDict o items -> snd (reconstruct_st E n spec) = Ok f ->
         fst (reconstruct_st E n spec) = untyped spec
         /\ forall m, snd (reconstruct_st E m (untyped spec)) = py ValueError.
Proof. exact reconstruct_effect_partial. Qed.
Print Assumptions C44_reconstruct_effect_partial.

Example C44_example :
  let spec := VDict false [(VStr $"fieldtype", VStr $"sequence");
                           (VStr $"item", VDict false [(VStr $"fieldtype", VStr $"integer"); (VStr $"minimum", VInt 1)])] in
  exists f, snd (reconstruct_st env0 2 spec) = Ok f
    /\ fst (reconstruct_st env0 2 spec) = VDict false [(VStr $"item", VDict false [(VStr $"minimum", VInt 1)])]
    /\ snd (reconstruct_st env0 2 (untyped spec)) = py ValueError.
Proof.
  intros spec. destruct (snd (reconstruct_st env0 2 spec)) as [f|e] eqn:Hf; [|vm_compute in Hf; discriminate].
  exists f. split; [reflexivity|]. destruct (proj2 (reconstruct_effect_partial env0 2 spec) _ _ _ eq_refl Hf) as [H1 H2].
  split; [exact H1|apply H2].
Qed.
