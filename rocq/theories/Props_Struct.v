(** Property theorems proved in StructProofs.v (generated by tools/mkprops.py). *)
From Verif Require Import Spec Demo StructProofs.

(** C24.  A structure accepts a dict exactly when it has no unknown key (if strict) and every
    visited key is left out or accepted; the result has exactly the entries of the keys that are not
    left out, with the results of their fields.  What becomes of a key is the relation [fate]. *)
Theorem C24_structure_accepts :
  forall E desc recon n p defn strict ko partial ph ser anc order o items r,
    p_preprocessor p = None -> NoDup (map fst defn) -> NoDup (map fst order) ->
    Forall (fun kf => defined E (snd kf)) order -> visits defn ko order ->
    distinct (e_local E) (map fst items) ->
    let f := Fld p (KStructure (SPlain defn) strict ko) in
    let path := path_of p (KStructure (SPlain defn) strict ko) anc in
    let run k g x := process_gen E desc recon n g false ph ser (path ++ [name_segment k]) x in
    (process_gen E desc recon n f partial ph ser anc (VDict o items) = Ok r
     <-> (strict = true -> forall k, In k (map fst items) -> exists s, k = VStr s /\ In s (map fst order))
         /\ exists entries, r = VDict (has_order ko) entries
              /\ gathered (fate E run ph partial path items) (fun out y => out = Ok y) order entries).
Proof. exact structure_accepts. Qed.
Print Assumptions C24_structure_accepts.

(* a is given, b gets its default, c is optional and left out. *)
Example C24_example :
  run0 (Fld p0 (KStructure (SPlain [($"a", Fld p_req (KInteger None None));
                                    ($"b", Fld (p_def (VInt 7)) (KInteger None None));
                                    ($"c", Fld p0 (KInteger None None))]) true None))
    Inbound false (VDict false [(VStr $"a", VInt 1)])
  = Ok (VDict false [(VStr $"a", VInt 1); (VStr $"b", VInt 7)]).
Proof. reflexivity. Qed.

(** C25.  If some visited key is rejected or a strict structure is given an unknown key, the one
    error that is raised maps every rejected key to its error, every accepted key to its result, and
    every unknown key to [unknown]; no other key appears. *)
Theorem C25_structure_errors :
  forall E desc recon n p defn strict ko partial ph ser anc order o items,
    p_preprocessor p = None -> NoDup (map fst defn) -> NoDup (map fst order) ->
    Forall (fun kf => defined E (snd kf)) order -> visits defn ko order ->
    distinct (e_local E) (map fst items) ->
    let f := Fld p (KStructure (SPlain defn) strict ko) in
    let path := path_of p (KStructure (SPlain defn) strict ko) anc in
    let run k g x := process_gen E desc recon n g false ph ser (path ++ [name_segment k]) x in
    let fates := fate E run ph partial path items in
    let is_unknown k := In k (map fst items) /\ forall s, In s (map fst order) -> k <> VStr s in
    (forall kf out, In kf order -> fates kf (Some out) -> orderly out) ->
    (exists kf out, In kf order /\ fates kf (Some out) /\ rejected out)
    \/ (strict = true /\ exists k, is_unknown k) ->
    exists entries unknown,
      process_gen E desc recon n f partial ph ser anc (VDict o items)
      = fails_with path (VDict (has_order ko) (entries ++ unknown))
      /\ gathered fates recorded order entries
      /\ (forall k, In k (map fst unknown) <-> strict = true /\ is_unknown k)
      /\ Forall (fun ke => snd ke = token_error path $"unknown") unknown.
Proof. exact structure_errors. Qed.
Print Assumptions C25_structure_errors.

(** C25.  A value that is not a dict is rejected as such. *)
Theorem C25_structure_invalid :
  forall E desc recon n p d strict ko partial ph ser anc v,
    as_dict v = None -> v <> VNone ->
    process_gen E desc recon n (Fld p (KStructure d strict ko)) partial ph ser anc v
    = invalid_type (path_of p (KStructure d strict ko) anc).
Proof. exact structure_invalid. Qed.
Print Assumptions C25_structure_invalid.

(* All failures at once: bad a, missing b, unknown z; c is good. *)
Example C25_example :
  run0 (Fld p0 (KStructure (SPlain [($"a", Fld p0 (KInteger (Some 5%Z) None));
                                    ($"b", Fld p_req (KInteger None None));
                                    ($"c", Fld p0 (KInteger None None))]) true None))
    Inbound false (VDict false [(VStr $"z", VInt 0); (VStr $"c", VInt 1); (VStr $"a", VInt 1)])
  = fails_with [$"(structure)"]
      (VDict false
         [(VStr $"a", VErr (Err CValidation [VDict false [(VStr $"token", VStr $"minimum")]]
                                [$"(structure)"; $".a"] None true));
          (VStr $"b", token_error [$"(structure)"] $"required");
          (VStr $"c", VInt 1);
          (VStr $"z", token_error [$"(structure)"] $"unknown")]).
Proof. reflexivity. Qed.

(** C26.  For an absent key with a default: inbound the result has the key with the processed
    default; outbound, and in a partial run, it does not have the key, and the value is not accepted
    at all if the key is required (outbound, not partial). *)
Theorem C26_structure_defaults :
  forall E desc recon n p defn strict ko partial ph ser anc order o items k f q entries,
    p_preprocessor p = None -> NoDup (map fst defn) -> NoDup (map fst order) ->
    Forall (fun kf => defined E (snd kf)) order -> visits defn ko order ->
    distinct (e_local E) (map fst items) ->
    In (k, f) order -> defined_as E f q -> p_default q <> VNone -> (forall v, ~ In (VStr k, v) items) ->
    let path := path_of p (KStructure (SPlain defn) strict ko) anc in
    process_gen E desc recon n (Fld p (KStructure (SPlain defn) strict ko)) partial ph ser anc (VDict o items)
    = Ok (VDict (has_order ko) entries) ->
    (partial = false -> ph = Inbound ->
       exists y, In (VStr k, y) entries
         /\ process_gen E desc recon n f false ph ser (path ++ [name_segment k]) (p_default q) = Ok y)
    /\ (partial = true \/ ph = Outbound -> ~ In (VStr k) (map fst entries))
    /\ (partial = false -> ph = Outbound -> p_required q = false).
Proof. exact structure_defaults. Qed.
Print Assumptions C26_structure_defaults.

(* Inbound, outbound and partial runs on an empty dict. *)
Example C26_example :
  let f := Fld p0 (KStructure (SPlain [($"b", Fld (p_def (VInt 7)) (KInteger None None))]) true None) in
  run0 f Inbound false (VDict false []) = Ok (VDict false [(VStr $"b", VInt 7)])
  /\ run0 f Outbound false (VDict false []) = Ok (VDict false [])
  /\ process_gen env0 nodesc norecon 5 f true Inbound false [] (VDict false []) = Ok (VDict false []).
Proof. repeat split; reflexivity. Qed.

(** C26.  A partial run does not require any key: with every present key accepted it succeeds on
    exactly those keys. *)
Theorem C26_structure_partial_run :
  forall E desc recon n p defn strict ko ph ser anc order o items,
    p_preprocessor p = None -> NoDup (map fst defn) -> NoDup (map fst order) ->
    Forall (fun kf => defined E (snd kf)) order -> visits defn ko order ->
    distinct (e_local E) (map fst items) ->
    let path := path_of p (KStructure (SPlain defn) strict ko) anc in
    (forall k, In k (map fst items) -> exists s, k = VStr s /\ In s (map fst order)) ->
    (forall k f v, In (k, f) order -> In (VStr k, v) items ->
       accepted (process_gen E desc recon n f false ph ser (path ++ [name_segment k]) v)) ->
    accepted (process_gen E desc recon n (Fld p (KStructure (SPlain defn) strict ko)) true ph ser anc
                (VDict o items)).
Proof. exact structure_partial_run. Qed.
Print Assumptions C26_structure_partial_run.

(* The required key b is absent. *)
Example C26_partial_example :
  let f := Fld p0 (KStructure (SPlain [($"a", Fld p0 (KInteger None None));
                                       ($"b", Fld p_req (KInteger None None))]) true None) in
  process_gen env0 nodesc norecon 5 f true Inbound false [] (VDict false [(VStr $"a", VInt 1)])
  = Ok (VDict false [(VStr $"a", VInt 1)])
  /\ process_gen env0 nodesc norecon 5 f false Inbound false [] (VDict false [(VStr $"a", VInt 1)])
  = fails_with [$"(structure)"] (VDict false [(VStr $"a", VInt 1);
                                              (VStr $"b", token_error [$"(structure)"] $"required")]).
Proof. split; reflexivity. Qed.

(** C27.  The claim does not hold: a null for an ignored field that has a default is dropped,
    while the absent key gets the default; and a null for an ignored required field is accepted, while
    the absent key is rejected. *)
Theorem C27_ignore_null_absence_refuted :
  exists E desc recon n f f' d,
    process_gen E desc recon n f false Inbound false [] (VDict false [(VStr $"a", VNone)]) = Ok (VDict false [])
    /\ process_gen E desc recon n f false Inbound false [] (VDict false []) = Ok (VDict false [(VStr $"a", d)])
    /\ process_gen E desc recon n f' false Inbound false [] (VDict false [(VStr $"a", VNone)]) = Ok (VDict false [])
    /\ rejected (process_gen E desc recon n f' false Inbound false [] (VDict false [])).
Proof. exact ignore_null_absence_refuted. Qed.
Print Assumptions C27_ignore_null_absence_refuted.

(** C27.  Part of the claim that holds: the null of an ignored field is never reported and never
    in the result; and for a field without default that is not required, or in a partial run, it is
    exactly as absence. *)
Theorem C27_ignore_null_partial :
  forall E run ph partial path k f q before after,
    defined_as E f q -> p_ignore_null q = true ->
    distinct (e_local E) (map fst (before ++ (VStr k, VNone) :: after)) ->
    let fates items := fate E run ph partial path items in
    (forall o, fates (before ++ (VStr k, VNone) :: after) (k, f) o <-> o = None)
    /\ (partial = true \/ p_required q = false /\ (ph = Outbound \/ p_default q = VNone) ->
        forall o, fates (before ++ after) (k, f) o <-> o = None).
Proof. exact ignore_null_partial. Qed.
Print Assumptions C27_ignore_null_partial.

(* The null of the optional ignored field is dropped. *)
Example C27_example :
  run0 (Fld p0 (KStructure (SPlain [($"a", Fld {| p_name := None; p_nonnull := true; p_required := false;
       p_ignore_null := true; p_default := VNone; p_constant := VNone; p_preprocessor := None;
       p_extractor := None; p_instantiator := None; p_title := VNone; p_description := VNone;
       p_notes := VNone; p_aspects := [] |} (KInteger None None));
      ($"b", Fld p_nn (KInteger None None))]) true None))
    Inbound false (VDict false [(VStr $"a", VNone); (VStr $"b", VInt 2)])
  = Ok (VDict false [(VStr $"b", VInt 2)]).
Proof. reflexivity. Qed.

(** C28.  A polymorphic structure does with a dict exactly what the plain structure of the
    selected variant does: no discriminator gives [required], the discriminator is processed by its
    own field, an unknown one gives [unrecognized]. *)
Theorem C28_polymorphic_selects :
  forall E desc recon n p on q name variants strict partial ph ser anc o items,
    p_preprocessor p = None -> defined_as E on q -> p_name q = Some name ->
    distinct (e_local E) (map fst items) ->
    let path := path_of p (KStructure (SPoly on variants) strict None) anc in
    let out := process_gen E desc recon n (Fld p (KStructure (SPoly on variants) strict None))
                 partial ph ser anc (VDict o items) in
    let run v := process_gen E desc recon n on false ph ser (path ++ [name_segment name]) v in
    let chosen id := find (fun vd => veq (e_local E) (fst vd) id) variants in
    ((forall v, In (VStr name, v) items -> v = VNone) -> out = fails path $"required")
    /\ (forall v, In (VStr name, v) items -> v <> VNone ->
         (forall x, run v = Raise x -> out = Raise x)
         /\ (forall id, run v = Ok id -> hashable id = true ->
              (chosen id = None -> out = fails path $"unrecognized")
              /\ (forall vk defn, chosen id = Some (vk, defn) -> defn <> [] ->
                  out = process_gen E desc recon n (Fld p (KStructure (SPlain defn) strict None))
                          partial ph ser anc (VDict o items)))).
Proof. exact polymorphic_selects. Qed.
Print Assumptions C28_polymorphic_selects.

(** C28.  The result carries the discriminator, if the chosen variant has a field for it: the
    value under the discriminator's name is what that field makes of it. *)
Theorem C28_polymorphic_discriminator :
  forall E desc recon n p on q name variants strict partial ph ser anc o items id vk defn f qf v entries,
    p_preprocessor p = None -> defined_as E on q -> p_name q = Some name ->
    distinct (e_local E) (map fst items) ->
    In (VStr name, v) items -> v <> VNone ->
    let path := path_of p (KStructure (SPoly on variants) strict None) anc in
    process_gen E desc recon n on false ph ser (path ++ [name_segment name]) v = Ok id ->
    hashable id = true ->
    find (fun vd => veq (e_local E) (fst vd) id) variants = Some (vk, defn) ->
    NoDup (map fst defn) -> Forall (fun kf => defined E (snd kf)) defn ->
    In (name, f) defn -> defined_as E f qf ->
    process_gen E desc recon n (Fld p (KStructure (SPoly on variants) strict None))
      partial ph ser anc (VDict o items) = Ok (VDict false entries) ->
    exists y, In (VStr name, y) entries
      /\ process_gen E desc recon n f false ph ser (path ++ [name_segment name]) v = Ok y.
Proof. exact polymorphic_discriminator. Qed.
Print Assumptions C28_polymorphic_discriminator.

(* Two variants selected by an enumeration. *)
Example C28_example :
  let kindf := Fld (p_named $"kind") (KEnumeration [VStr $"i"; VStr $"t"] None) in
  let f := Fld p0 (KStructure (SPoly kindf
     [(VStr $"i", [($"kind", kindf); ($"x", Fld p_req (KInteger None None))]);
      (VStr $"t", [($"kind", kindf); ($"x", Fld p_req (KText None None None true))])]) true None) in
  run0 f Inbound false (VDict false [(VStr $"kind", VStr $"t"); (VStr $"x", VStr $"a")])
  = Ok (VDict false [(VStr $"kind", VStr $"t"); (VStr $"x", VStr $"a")])
  /\ run0 f Inbound false (VDict false [(VStr $"x", VStr $"a")]) = fails [$"(structure)"] $"required"
  /\ run0 f Inbound false (VDict false [(VStr $"kind", VStr $"z")])
     = just_token CInvalidType [$"(structure)"; $".kind"] $"invalid".
Proof. repeat split; reflexivity. Qed.

(** C29.  The keys of a result are the visited keys, in the order of [key_order] if there is one
    (else of the definition), with some left out. *)
Theorem C29_structure_key_order :
  forall E desc recon n p defn strict ko partial ph ser anc order o items r,
    p_preprocessor p = None -> NoDup (map fst defn) -> NoDup (map fst order) ->
    Forall (fun kf => defined E (snd kf)) order -> visits defn ko order ->
    distinct (e_local E) (map fst items) ->
    process_gen E desc recon n (Fld p (KStructure (SPlain defn) strict ko)) partial ph ser anc (VDict o items)
    = Ok r ->
    exists entries, r = VDict (has_order ko) entries
      /\ sublist (map fst entries)
           (map VStr (match ko with Some (k :: ks) => k :: ks | _ => map fst defn end)).
Proof. exact structure_key_order. Qed.
Print Assumptions C29_structure_key_order.

(** C29.  A key order that names a key not in the definition makes every dict fail with KeyError
    (unless an exception of an earlier field comes first). *)
Theorem C29_structure_key_order_undefined :
  forall E desc recon n p defn strict o1 o2 k partial ph ser anc order o items,
    p_preprocessor p = None -> NoDup (map fst defn) -> NoDup (o1 ++ k :: o2) ->
    map fst order = o1 -> incl order defn ->
    Forall (fun kf => defined E (snd kf)) order -> ~ In k (map fst defn) ->
    distinct (e_local E) (map fst items) ->
    let ko := Some (o1 ++ k :: o2) in
    let path := path_of p (KStructure (SPlain defn) strict ko) anc in
    let run k g x := process_gen E desc recon n g false ph ser (path ++ [name_segment k]) x in
    (forall kf out, In kf order -> fate E run ph partial path items kf (Some out) -> orderly out) ->
    process_gen E desc recon n (Fld p (KStructure (SPlain defn) strict ko)) partial ph ser anc (VDict o items)
    = Raise (XPy KeyError).
Proof. exact structure_key_order_undefined. Qed.
Print Assumptions C29_structure_key_order_undefined.

(* Given z, y, x in some order, the result follows the key order; an undefined key fails. *)
Example C29_example :
  let d := SPlain [($"x", Fld p0 (KInteger None None)); ($"y", Fld p0 (KInteger None None));
                   ($"z", Fld p0 (KInteger None None))] in
  run0 (Fld p0 (KStructure d true (Some [$"z"; $"x"; $"y"]))) Inbound false
    (VDict false [(VStr $"x", VInt 1); (VStr $"z", VInt 3); (VStr $"y", VInt 2)])
  = Ok (VDict true [(VStr $"z", VInt 3); (VStr $"x", VInt 1); (VStr $"y", VInt 2)])
  /\ run0 (Fld p0 (KStructure d true (Some [$"z"; $"w"]))) Inbound false (VDict false [(VStr $"z", VStr $"a")])
  = Raise (XPy KeyError).
Proof. split; reflexivity. Qed.

(** C29.  A defined key that the key order omits is treated as an unknown key: rejected if the
    structure is strict, dropped if not. *)
Theorem C29_structure_key_order_omits :
  forall E desc recon n p defn strict k0 ks partial ph ser anc order o items r k v,
    p_preprocessor p = None -> NoDup (map fst defn) -> NoDup (map fst order) ->
    Forall (fun kf => defined E (snd kf)) order -> visits defn (Some (k0 :: ks)) order ->
    distinct (e_local E) (map fst items) ->
    In (VStr k, v) items -> ~ In k (k0 :: ks) ->
    process_gen E desc recon n (Fld p (KStructure (SPlain defn) strict (Some (k0 :: ks))))
      partial ph ser anc (VDict o items) = Ok r ->
    strict = false /\ exists entries, r = VDict true entries /\ ~ In (VStr k) (map fst entries).
Proof. exact structure_key_order_omits. Qed.
Print Assumptions C29_structure_key_order_omits.

(* y is not in the key order. *)
Example C29_omits_example :
  let d := SPlain [($"x", Fld p0 (KInteger None None)); ($"y", Fld p0 (KInteger None None))] in
  run0 (Fld p0 (KStructure d false (Some [$"x"]))) Inbound false
    (VDict false [(VStr $"x", VInt 1); (VStr $"y", VInt 2)])
  = Ok (VDict true [(VStr $"x", VInt 1)]).
Proof. reflexivity. Qed.
