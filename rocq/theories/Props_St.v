(** Property theorems proved in StProofs.v (generated by tools/mkprops.py). *)
From Verif Require Import Spec Demo StSpec StProofs.

(** C59.  Parsing any text stops: for every text the unbounded loop ends after [k] passes that
    replace something, where [k] is at most the number of opening brackets of the text, and one more
    that finds nothing; the model's parser returns what that loop returns, and nothing else can
    happen. *)
Theorem C59_structuredtext_terminates :
  forall E numbers s,
    exists k r, loop E numbers k [] s r /\ (k <= openings s)%nat /\ structured_value E numbers s = r
      /\ forall k' r', loop E numbers k' [] s r' -> k' = k /\ r' = r.
Proof. exact structuredtext_terminates. Qed.
Print Assumptions C59_structuredtext_terminates.

Example C59_example :
  openings $"[a,{b:[c,d]}]" = 3%nat
  /\ structured_value env0 false $"[a,{b:[c,d]}]"
     = Ok (VList [VStr $"a"; VDict false [(VStr $"b", VList [VStr $"c"; VStr $"d"])]])
  /\ structured_value env0 false $"[a,{b:[c,d}]" = py KeyError
  /\ structured_value env0 false $"{ab}" = py ValueError.
Proof. vm_compute. auto. Qed.

(** C58.  Every nested list and dict of booleans, nulls and plain texts (and of integers, when
    numbers are parsed) is read back as it was written, up to the order of dict entries; the empty
    text by itself is not. *)
Theorem C58_structuredtext_roundtrip :
  forall E numbers v, clean E numbers v -> v <> VStr [] ->
    exists t w, st_serialize E v = Ok t /\ st_unserialize E numbers t = Ok w /\ reordered v w.
Proof. exact structuredtext_roundtrip. Qed.
Print Assumptions C58_structuredtext_roundtrip.

Definition v58 := VDict false [(VStr $"b", VList [VStr $"x y"; VBool true; VNone; VInt (-12)]);
                               (VStr $"a", VDict true [(VStr $"c", VList [VList []; VStr []])])].
Example C58_example :
  clean env0 true v58
  /\ st_serialize env0 v58 = Ok $"{a:{c:[[],]},b:[x y,true,null,-12]}"
  /\ st_unserialize env0 true $"{a:{c:[[],]},b:[x y,true,null,-12]}"
     = Ok (VDict false [(VStr $"a", VDict false [(VStr $"c", VList [VList []; VStr []])]);
                        (VStr $"b", VList [VStr $"x y"; VBool true; VNone; VInt (-12)])]).
Proof.
  assert (Hp : forall s, forallb (fun c => negb (existsb (N.eqb c) $"{}[],\:|")) s = true -> plain_key s /\ ~ token_like s).
  { intros s Hs. rewrite forallb_forall in Hs.
    assert (Hn : forall c, In c s -> ~ In c $"{}[],\:|").
    { intros c Hc Hin. specialize (Hs c Hc). apply negb_true_iff in Hs. apply Bool.not_true_iff_false in Hs. apply Hs.
      apply existsb_exists. exists c. split; [exact Hin|apply N.eqb_refl]. }
    split.
    - intros c Hc. specialize (Hn c Hc). unfold separator. cbn in *. split; [tauto|intros ->; tauto].
    - intros [n ->]. apply (Hn 124%N); cbn; auto 12. }
  assert (Ht : forall s, s = $"x y" \/ s = [] -> plain_text env0 true s).
  { intros s Hs. assert (Hk : plain_key s /\ ~ token_like s) by (apply Hp; destruct Hs; subst; reflexivity). destruct Hk as [Hk Hl].
    split; [intros c Hc; apply (Hk c Hc)|]. split; [exact Hl|]. split.
    - cbn [In]. intros Hx. destruct Hs; subst; vm_compute in Hx; intuition discriminate.
    - intros _. split; destruct Hs; subst; try reflexivity; cbn; intuition discriminate. }
  split; [|split; vm_compute; reflexivity].
  unfold v58. apply clean_dict.
  - repeat constructor; cbn; intuition discriminate.
  - intros k v [[= <- <-]|[[= <- <-]|[]]]; eexists; (split; [reflexivity|]); apply Hp; reflexivity.
  - intros k v [[= <- <-]|[[= <- <-]|[]]].
    + apply clean_list; [|discriminate]. intros v [<-|[<-|[<-|[<-|[]]]]]; constructor; auto.
    + apply clean_dict.
      * repeat constructor; cbn; intuition discriminate.
      * intros k v [[= <- <-]|[]]; eexists; (split; [reflexivity|]); apply Hp; reflexivity.
      * intros k v [[= <- <-]|[]]. apply clean_list; [|discriminate]. intros v [<-|[<-|[]]].
        { apply clean_list; [intros v []|discriminate]. }
        { constructor. auto. }
Qed.

(** C60.  REFUTED: different values have one text, so that no parser could restore both: a text
    with a comma and two texts, the empty text in a list and nothing, the text "true" and the
    boolean, a number and its digits; and a text with brackets beside a list cannot be read at all. *)
Theorem C60_structuredtext_texts_refuted :
  (exists a b, VList [VStr a] <> b /\ forall E, st_serialize E (VList [VStr a]) = st_serialize E b)
  /\ (forall E, st_serialize E (VList [VStr []]) = st_serialize E (VList []))
  /\ (forall E, st_serialize E (VStr $"true") = st_serialize E (VBool true))
  /\ (forall E z, st_serialize E (VInt z) = st_serialize E (VStr (Z_text z)))
  /\ exists v t, (forall E, st_serialize E v = Ok t) /\ forall E numbers, st_unserialize E numbers t = py ValueError.
Proof. exact structuredtext_texts_refuted. Qed.
Print Assumptions C60_structuredtext_texts_refuted.

Example C60_example : escape $"{b}" = $"\{b\}" /\ st_unserialize env0 false $"{a:[x],j:\{b\}}" = py ValueError.
Proof. vm_compute. auto. Qed.

(** C60.  What holds: a text by itself is preserved whatever characters it has, unless it is
    empty or (in any case) one of the three keywords; no two texts are written alike. *)
Theorem C60_structuredtext_single_text_partial :
  forall E s,
    (s <> [] -> ~ In (lower (e_ulower E) s) [$"true"; $"false"; $"null"] ->
     exists t, st_serialize E (VStr s) = Ok t /\ st_unserialize E false t = Ok (VStr s))
    /\ forall s', st_serialize E (VStr s) = st_serialize E (VStr s') -> s = s'.
Proof. exact structuredtext_single_text_partial. Qed.
Print Assumptions C60_structuredtext_single_text_partial.

Example C60_single : ~ In (lower (e_ulower env0) $"a,\{[b]") [$"true"; $"false"; $"null"]
  /\ st_serialize env0 (VStr $"a,\{[b]") = Ok $"a,\\{\[b\]"
  /\ st_unserialize env0 false $"a,\\{\[b\]" = Ok (VStr $"a,\{[b]").
Proof. split; [vm_compute; intuition discriminate|]. vm_compute. auto. Qed.
