(** Property theorems proved in LocProofs.v (generated by tools/mkprops.py). *)
From Verif Require Import Spec Demo LocProofs.

(** C35.  Every error that escapes from an ordinary field names the path of the field, and every
    error nested in it, at any depth, names the path of keys and indices at which it sits, following
    the schema - except that missing and unknown keys are reported under the path of their
    container; and each carries a token that its field may use.  (See [located] and [tells] in
    Spec.v.) *)
Theorem C35_error_locations_partial :
  forall E desc recon n p k partial ph ser anc v e,
    throughout E ordinary (Fld p k) ->
    process_gen E desc recon n (Fld p k) partial ph ser anc v = Raise (XErr e) ->
    located E (Fld p k) (path_of p k anc) e.
Proof. exact error_locations_partial. Qed.
Print Assumptions C35_error_locations_partial.

(** C35.  As stated the claim fails: the error for a missing required key sits at the key but
    names the path of the structure. *)
Theorem C35_error_locations_refuted :
  exists E desc recon n p k v path o l x,
    process_gen E desc recon n (Fld p k) false Inbound false [] v
      = fails_with path (VDict o l)
    /\ In (VStr $"a", VErr x) l
    /\ er_identity x <> path ++ [name_segment $"a"].
Proof. exact error_locations_refuted. Qed.
Print Assumptions C35_error_locations_refuted.

(* A text where an integer is expected, in a sequence under a key. *)
Example C35_example :
  let f := KStructure (SPlain [($"a", Fld p0 (KSequence (Fld p0 (KInteger None None)) None None false))]) true None in
  throughout env0 ordinary (Fld p0 f)
  /\ run0 (Fld p0 f) Inbound false (VDict false [(VStr $"a", VList [VInt 1; VStr $"x"])])
     = fails_with [$"(structure)"]
         (VDict false [(VStr $"a", VErr (struct_err [$"(structure)"; $".a"]
            (VList [VInt 1; VErr (own_err CInvalidType [$"(structure)"; $".a"; $"[1]"] $"invalid")])))]).
Proof.
  split; [|reflexivity]. split; [|discriminate]. constructor; [exact I|]. intros g [<-|[]].
  constructor; [reflexivity|]. intros g [<-|[]]. constructor; [exact I|intros g []].
Qed.

(** C37.  Every structural error raised by an ordinary field, for any proper value, carries a
    token, its own or that of a nested error, provided that no map of the schema collapses keys. *)
Theorem C37_rejections_carry_a_reason :
  forall E desc recon n f partial ph ser anc v e,
    throughout E well_keyed f -> throughout E (reasoned E desc recon) f -> proper (e_local E) v ->
    process_gen E desc recon n f partial ph ser anc v = Raise (XErr e) ->
    has_reason e.
Proof. exact rejections_carry_a_reason. Qed.
Print Assumptions C37_rejections_carry_a_reason.

(* The schema of the C35 example satisfies the hypotheses, and so does a map with untouched keys. *)
Example C37_example :
  let f := Fld p0 (KMap (Fld p0 (KInteger None None)) (Some (Fld p0 (KText None None None false))) None) in
  throughout env0 well_keyed f /\ throughout env0 (reasoned env0 nodesc norecon) f
  /\ run0 f Inbound false (VDict false [(VStr $"a", VStr $"x"); (VStr $"b", VInt 1)])
     = fails_with [$"(map)"]
         (VDict false [(VStr $"a", VErr (own_err CInvalidType [$"(map)"; $"[a]"] $"invalid")); (VStr $"b", VInt 1)]).
Proof.
  assert (Hp : proper (e_local env0) VNone) by (constructor; [discriminate|intros l [H|H]; discriminate]).
  split; [|split; [|reflexivity]].
  - split; [|discriminate]. constructor; [exact I|]. intros g [<-|[<-|[]]]; (constructor; [exact I|intros g []]).
  - split; [|discriminate]. constructor.
    + split; [reflexivity|]. split; [exact Hp|].
      intros n ph ser a1 a2 k1 k2 r1 r2 H1 H2 Hv.
      apply text_plain_result in H1, H2. subst. exact Hv.
    + intros g [<-|[<-|[]]]; (constructor; [split; [exact I|]; split; [exact Hp|exact I]|intros g []]).
Qed.

(** C37.  The exception is real: when a map collapses two keys the error of the first can be lost
    and the rejection says nothing. *)
Theorem C37_map_collapse_without_reason :
  exists E desc recon n f v e,
    proper (e_local E) v
    /\ process_gen E desc recon n f false Inbound false [] v = Raise (XErr e)
    /\ ~ has_reason e.
Proof. exact map_collapse_without_reason. Qed.
Print Assumptions C37_map_collapse_without_reason.
