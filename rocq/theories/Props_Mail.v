(** Property theorems proved in MailProofs.v (generated by tools/mkprops.py). *)
From Verif Require Import Spec Demo RtSpec JsonSpec IoSpec CarrySpec SurrogateSpec MailSpec MailProofs.
Open Scope Z_scope.

(** C80.  Surrogates inside other values, and inside the contents of other surrogates at any depth, go through
    the format json with the values around them: serializing gives a printable text, and unserializing that
    text gives exactly the value. *)
Theorem C80_surrogates_through_json_partial :
  forall E wrap load desc recon n m f v N k,
    mailable E desc recon n m f v -> (n + m * S n <= N)%nat -> keyed (Json E) k ->
    let reg := formats E wrap load in
    exists t,
      field_serialize E desc recon N reg f v (Some k) = Ok (VStr t)
      /\ (forall c, In c t -> (32 <= c <= 126)%N)
      /\ field_unserialize E desc recon N reg f t k = Ok v.
Proof. exact surrogates_through_json_partial. Qed.
Print Assumptions C80_surrogates_through_json_partial.

(* A list of surrogates; the first one has a versioned schema and holds another surrogate. *)
Definition holder80 : field := Fld p0 (KStructure (SPlain [($"inner", Fld p0 (KSurrogate None))]) true None).
Definition env80 : env := {|
  e_pre := e_pre env0; e_ext := e_ext env0; e_inst := e_inst env0; e_pattern := e_pattern env0; e_local := e_local env0;
  e_pad := true; e_udigit := e_udigit env0; e_uword := e_uword env0; e_ulower := e_ulower env0; e_import := e_import env0;
  e_identify := e_identify env0; e_undef := fun _ => None; e_str := e_str env0;
  e_impl := fun t => match t with VStr s => if str_eqb s $"pkg.S" then 1%nat else if str_eqb s $"pkg.T" then 2%nat else 0%nat | _ => 0%nat end;
  e_schemas := fun i => match i with 1%nat => [holder80; holder80] | _ => [] end;
  e_surrogate := fun i => match i with 1%nat => Some $"pkg.S" | 2%nat => Some $"pkg.T" | _ => None end; e_identity := fun _ => None;
  e_compile := e_compile env0; e_repr := e_repr env0 |}.
Lemma low80 (s : str) : forallb (fun c => (c <? 127)%N) s = true -> carried s.
Proof.
  intros H. assert (Hc : forall c, In c s -> (c < 127)%N).
  { intros c Hc. rewrite forallb_forall in H. specialize (H c Hc). cbv beta in H. apply N.ltb_lt in H. exact H. }
  split.
  - intros c Hin. specialize (Hc c Hin). lia.
  - intros a h l b -> Hx. assert (Hh : In h (a ++ h :: l :: b)) by (apply in_or_app; right; left; reflexivity).
    specialize (Hc h Hh). lia.
Qed.
Definition seq80 : field := Fld p0 (KSequence (Fld p0 (KSurrogate None)) None None false).
Definition plain80 : val := VSurr 2 None None [(VStr $"id", VInt 4)].
Definition list80 : val := VList [VSurr 1 None (Some 2%Z) [(VStr $"inner", plain80)]; VNone; plain80].
Lemma mailable80 : mailable env80 nodesc norecon 0 2 seq80 list80.
Proof.
  assert (Hany : forall P : params -> kind -> Prop, (forall p d valid, p = p0 -> carried d -> P p (KSurrogate valid) /\ P p (KStructure (SPlain [(d, Fld p0 (KSurrogate None))]) true None)
                                                   /\ P p (KSequence (Fld p0 (KSurrogate None)) None None false)) ->
            throughout env80 P seq80 /\ throughout env80 P holder80).
  { intros P HP. assert (Hs : everywhere P (Fld p0 (KSurrogate None))) by (constructor; [apply (HP p0 $"inner" None eq_refl), low80; reflexivity|intros g []]).
    assert (HP' := HP p0 $"inner" None eq_refl (low80 $"inner" eq_refl)).
    split; (split; [|discriminate]); constructor.
    - apply HP'.
    - intros g [<-|[]]. exact Hs.
    - apply HP'.
    - intros g [<-|[]]. exact Hs. }
  assert (Hwk : throughout env80 well_keyed seq80 /\ throughout env80 well_keyed holder80).
  { apply Hany. intros p d valid -> _. split; [exact I|]. split; [|exact I]. split; [|exact I]. constructor; [intros []|constructor]. }
  assert (Hti : throughout env80 (tidy env80) seq80 /\ throughout env80 (tidy env80) holder80).
  { apply Hany. intros p d valid -> _. repeat split. }
  assert (Htr : throughout env80 (transportable env80) seq80 /\ throughout env80 (transportable env80) holder80).
  { apply Hany. intros p d valid -> _. repeat split. }
  assert (Hjp : throughout env80 (json_portable env80) seq80 /\ throughout env80 (json_portable env80) holder80).
  { apply Hany. intros p d valid -> Hd. split; [exact I|]. split; [|exact I]. intros name [<-|[]]. exact Hd. }
  assert (Hc : forall i z l, conforms env80 0 (Fld p0 (KSurrogate None)) (VSurr i None z l)).
  { intros i z l. right. split; [discriminate|]. split; [exists i, None, z, l; repeat split; exact I|]. split; [left; reflexivity|].
    intros _. split; [discriminate|exact I]. }
  assert (Hplain : exists impl token schema version items, plain80 = VSurr impl schema version items
            /\ permitted env80 None impl /\ identified env80 impl token /\ carried token
            /\ schema = None /\ version = None /\ e_schemas env80 impl = [] /\ document env80 (VDict false items)
            /\ forall s, reserved s -> ~ In (VStr s) (map fst items)).
  { exists 2%nat, $"pkg.T", None, None, [(VStr $"id", VInt 4)]. split; [reflexivity|]. split; [exact I|]. split; [split; reflexivity|].
    split; [apply low80; reflexivity|]. split; [reflexivity|]. split; [reflexivity|]. split; [reflexivity|]. split.
    - constructor; [constructor; [intros []|constructor]| |]; intros k v [[= <- <-]|[]]; [|constructor].
      eexists. split; [reflexivity|apply low80; reflexivity].
    - intros s [->|[->| ->]] [H|[]]; discriminate. }
  split; [apply Hwk|]. split; [apply Hti|]. split; [apply Htr|]. split; [apply Hjp|]. split; [|split].
  - right. split; [discriminate|]. exists [VSurr 1 None (Some 2%Z) [(VStr $"inner", plain80)]; VNone; plain80].
    split; [reflexivity|]. split; [discriminate|]. split; [discriminate|]. split; [|discriminate].
    constructor; [apply Hc|]. constructor; [left; split; reflexivity|]. constructor; [apply Hc|constructor].
  - intros k x Hx. inversion Hx; subst; [split; right; exact I|]. match goal with H : meets _ (Fld _ (KSurrogate _)) _ _ _ |- _ => inversion H end. split; right; exact I.
  - intros valid x Hx Hxn. inversion Hx; subst. match goal with H : meets _ (Fld _ (KSurrogate _)) _ _ _ |- _ => inversion H; subst; clear H end.
    match goal with H : In _ _ |- _ => destruct H as [<-|[<-|[<-|[]]]] end; [|congruence|].
    + exists 1%nat, $"pkg.S", None, (Some 2%Z), [(VStr $"inner", plain80)]. split; [reflexivity|]. split; [exact I|]. split; [split; reflexivity|].
      split; [apply low80; reflexivity|].
      exists holder80. split; [split; [vm_compute; split; discriminate|reflexivity]|]. split.
      { exists p0, (SPlain [($"inner", Fld p0 (KSurrogate None))]), true, None. split; [reflexivity|]. intros s [<-|[]] [H|[H|H]]; discriminate. }
      split; [apply Hwk|]. split; [apply Hti|]. split; [apply Htr|]. split; [apply Hjp|]. split; [|split].
      * right. split; [discriminate|]. exists [(VStr $"inner", plain80)]. split; [reflexivity|]. split; [|split].
        -- apply sublist_take, sublist_nil.
        -- intros k y [[= <- <-]|[]]. exists (Fld p0 (KSurrogate None), conforms env80 0 (Fld p0 (KSurrogate None))). split; [left; reflexivity|]. apply Hc.
        -- intros k c [<-|[]] _ Hn. exfalso. apply Hn. left. reflexivity.
      * intros k x Hx'. inversion Hx'; subst; [split; right; exact I|].
        match goal with H : In _ [(_, Fld _ _)] |- _ => destruct H as [[= <- <-]|[]] end.
        match goal with H : meets _ (Fld _ (KSurrogate _)) _ _ _ |- _ => inversion H end. split; right; exact I.
      * intros valid x Hx' Hxn'. inversion Hx'; subst.
        match goal with H : In _ [(_, Fld _ _)] |- _ => destruct H as [[= <- <-]|[]] end.
        match goal with H : In _ [(_, plain80)] |- _ => destruct H as [[= <-]|[]] end.
        match goal with H : meets _ (Fld _ (KSurrogate _)) _ _ _ |- _ => inversion H; subst end.
        destruct Hplain as [impl [token [schema [version [items [-> [H1 [H2 [H2' [-> [-> [H3 [H3' H4]]]]]]]]]]]]]. exists impl, token, None, None, items. auto 8.
    + destruct Hplain as [impl [token [schema [version [items [-> [H1 [H2 [H2' [-> [-> [H3 [H3' H4]]]]]]]]]]]]]. exists impl, token, None, None, items. auto 8.
Qed.
Example C80_surrogates_example :
  let reg := formats env80 (fun _ t => [t]) (fun _ => Ok VNone) in
  let t := $"[{""inner"": {""id"": 4, ""_"": ""pkg.T""}, ""__version__"": 2, ""_"": ""pkg.S""}, null, {""id"": 4, ""_"": ""pkg.T""}]" in
  mailable env80 nodesc norecon 0 2 seq80 list80
  /\ field_serialize env80 nodesc norecon 2 reg seq80 list80 (Some (ByText $"json")) = Ok (VStr t)
  /\ field_unserialize env80 nodesc norecon 2 reg seq80 t (ByText $"json") = Ok list80.
Proof. split; [exact mailable80|]. vm_compute. split; reflexivity. Qed.

(** C80.  So for files, as above. *)
Theorem C80_surrogates_in_json_files_partial :
  forall E wrap load desc recon n m f v N w path format quiet,
    mailable E desc recon n m f v -> (n + m * S n <= N)%nat ->
    (exists k, format = Some k /\ keyed (Json E) k) \/ format = None /\ path_with path $"json" ->
    path <> [] -> w_readable w path = true -> w_writable w path = true -> w_node w path <> Some Folder ->
    let reg := formats E wrap load in
    exists w',
      field_write E desc recon N reg w f path v format = (Ok tt, w')
      /\ field_read E desc recon N reg w' f path format quiet = Ok v
      /\ only_changed path w w'.
Proof. exact surrogates_in_json_files_partial. Qed.
Print Assumptions C80_surrogates_in_json_files_partial.

Example C80_surrogate_file_example :
  let reg := formats env80 (fun _ t => [t]) (fun _ => Ok VNone) in
  let w : world := {| w_node := fun _ => None; w_readable := fun _ => true; w_writable := fun _ => true |} in
  mailable env80 nodesc norecon 0 2 seq80 list80 /\ path_with $"a.json" $"json"
  /\ let r := field_write env80 nodesc norecon 2 reg w seq80 $"a.json" list80 None in
     fst r = Ok tt /\ field_read env80 nodesc norecon 2 reg (snd r) seq80 $"a.json" None false = Ok list80.
Proof.
  split; [exact mailable80|]. split; [|split; vm_compute; reflexivity].
  exists [], $"a". split; [reflexivity|]. split; [left; reflexivity|].
  split; [cbn; intuition discriminate|]. split; [exists 97%N; split; [left; reflexivity|discriminate]|].
  split; cbn; intuition discriminate.
Qed.
