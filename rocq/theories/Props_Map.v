(** Property theorems proved in MapProofs.v (generated by tools/mkprops.py). *)
From Verif Require Import Spec Demo MapProofs.

(** C21.  A map accepts a dict exactly when every key is a string (or is accepted by the key
    field), every value is accepted by the value field, and every required key is among the processed
    keys (which can be hashed). *)
Theorem C21_map_accepts :
  forall E desc recon n p vf kf req partial ph ser anc o items,
    p_preprocessor p = None -> defined E vf ->
    Forall (fun k => hashable k = true) (match req with Some l => l | None => [] end) ->
    distinct (e_local E) (match req with Some l => l | None => [] end) ->
    let path := path_of p (KMap vf kf req) anc in
    let run f s x := process_gen E desc recon n f false ph ser (path ++ [key_segment s]) x in
    let out := process_gen E desc recon n (Fld p (KMap vf kf req)) partial ph ser anc (VDict o items) in
    let entry kv ke :=
      match kf with
      | None => fst ke = fst kv /\ exists s, fst kv = VStr s
      | Some f => exists s, percent_s E (fst kv) = Some s /\ run f s (fst kv) = Ok (fst ke)
      end
      /\ hashable (fst ke) = true
      /\ exists s, percent_s E (fst ke) = Some s /\ run vf s (snd kv) = Ok (snd ke) in
    (accepted out <->
     exists entries, Forall2 entry items entries
       /\ (forall l k, req = Some l -> In k l ->
             exists ke, In ke (set_all (e_local E) entries []) /\ veq (e_local E) (fst ke) k = true))
    /\ (forall entries, Forall2 entry items entries -> distinct (e_local E) (map fst entries) ->
        (forall l k, req = Some l -> In k l -> exists ke, In ke entries /\ veq (e_local E) (fst ke) k = true) ->
        out = Ok (VDict false entries)).
Proof. exact map_accepts. Qed.
Print Assumptions C21_map_accepts.

(* A map from integers to texts, serialized, with a required key. *)
Example C21_example :
  run0 (Fld p0 (KMap (Fld p0 (KText None None None true)) (Some (Fld p0 (KInteger None None)))
                     (Some [VInt 2])))
    Inbound true (VDict false [(VStr $"1", VStr $"a"); (VStr $" 2", VStr $"b ")])
  = Ok (VDict false [(VInt 1, VStr $"a"); (VInt 2, VStr $"b")]).
Proof. reflexivity. Qed.

(** C21.  The rejections of a map: anything but a dict; a key that is not a string or is rejected
    by the key field; otherwise, when the processed keys are distinct, the error structure has one
    entry for each item, its error or its result, and a [required] error for each missing key. *)
Theorem C21_map_errors :
  forall E desc recon n p vf kf req partial ph ser anc v,
    p_preprocessor p = None -> defined E vf ->
    Forall (fun k => hashable k = true) (match req with Some l => l | None => [] end) ->
    distinct (e_local E) (match req with Some l => l | None => [] end) ->
    let path := path_of p (KMap vf kf req) anc in
    let run f s x := process_gen E desc recon n f false ph ser (path ++ [key_segment s]) x in
    let out := process_gen E desc recon n (Fld p (KMap vf kf req)) partial ph ser anc v in
    let key_accepted k k' :=
      match kf with
      | None => k' = k /\ exists s, k = VStr s
      | Some f => exists s, percent_s E k = Some s /\ run f s k = Ok k'
      end in
    let key_rejected k :=
      match kf with
      | None => forall s, k <> VStr s
      | Some f => exists s, percent_s E k = Some s /\ rejected (run f s k)
      end in
    let entry kv ke :=
      key_accepted (fst kv) (fst ke) /\ hashable (fst ke) = true
      /\ exists s, percent_s E (fst ke) = Some s /\ recorded (run vf s (snd kv)) (snd ke) in
    (as_dict v = None -> v <> VNone -> out = invalid_type path)
    /\ (forall o before kv after entries, v = VDict o (before ++ kv :: after) ->
        Forall2 entry before entries -> key_rejected (fst kv) -> out = fails path $"invalidkeys")
    /\ (forall o items entries, v = VDict o items ->
        Forall2 entry items entries -> distinct (e_local E) (map fst entries) ->
        ~ Forall2 (fun kv ke => exists s, percent_s E (fst ke) = Some s
                                /\ run vf s (snd kv) = Ok (snd ke)) items entries
        \/ (exists l k, req = Some l /\ In k l
            /\ forall ke, In ke entries -> veq (e_local E) (fst ke) k = false) ->
        exists missing,
          out = fails_with path
                  (VDict false (entries ++ map (fun k => (k, token_error path $"required")) missing))
          /\ forall k, In k missing <->
               exists l, req = Some l /\ In k l
                         /\ forall ke, In ke entries -> veq (e_local E) (fst ke) k = false).
Proof. exact map_errors. Qed.
Print Assumptions C21_map_errors.

(* One bad value, one good value, one missing required key. *)
Example C21_errors_example :
  run0 (Fld p0 (KMap (Fld p0 (KInteger None None)) None (Some [VStr $"c"])))
    Inbound false (VDict false [(VStr $"a", VStr $"x"); (VStr $"b", VInt 2)])
  = fails_with [$"(map)"]
      (VDict false [(VStr $"a", VErr (Err CInvalidType [VDict false [(VStr $"token", VStr $"invalid")]]
                                          [$"(map)"; $"[a]"] None true));
                    (VStr $"b", VInt 2);
                    (VStr $"c", token_error [$"(map)"] $"required")]).
Proof. reflexivity. Qed.

(** C22.  The claim does not hold: two keys of the value may be processed to the same key.  The
    result then has one entry for two items; and the failure of a value may be overwritten, so that
    the raised error contains no reason at all. *)
Theorem C22_map_loses_entries_refuted :
  exists E desc recon n f items r e,
    distinct (e_local E) (map fst items)
    /\ process_gen E desc recon n f false Inbound true [] (VDict false items) = Ok (VDict false r)
    /\ length r <> length items
    /\ exists items', distinct (e_local E) (map fst items')
       /\ process_gen E desc recon n f false Inbound true [] (VDict false items') = Raise (XErr e)
       /\ er_errors e = [] /\ er_structure e = Some (VDict false [(VInt 1, VInt 7)]).
Proof. exact map_loses_entries_refuted. Qed.
Print Assumptions C22_map_loses_entries_refuted.

(** C22.  Part of the claim that holds: without a key field no entry is lost; every item is in
    the result (or in the error structure) under its own key. *)
Theorem C22_map_keeps_entries_partial :
  forall E desc recon n p vf partial ph ser anc o items,
    p_preprocessor p = None -> defined E vf -> distinct (e_local E) (map fst items) ->
    let path := path_of p (KMap vf None None) anc in
    let run s x := process_gen E desc recon n vf false ph ser (path ++ [key_segment s]) x in
    let out := process_gen E desc recon n (Fld p (KMap vf None None)) partial ph ser anc (VDict o items) in
    (forall k x, In (k, x) items -> exists s, k = VStr s /\ orderly (run s x)) ->
    exists entries,
      Forall2 (fun kv ke => fst ke = fst kv
                 /\ exists s, fst kv = VStr s /\ recorded (run s (snd kv)) (snd ke)) items entries
      /\ (out = Ok (VDict false entries) \/ out = fails_with path (VDict false entries)).
Proof. exact map_keeps_entries_partial. Qed.
Print Assumptions C22_map_keeps_entries_partial.

(* Both entries, good and bad, are kept. *)
Example C22_example :
  run0 (Fld p0 (KMap (Fld p0 (KInteger (Some 5%Z) None)) None None))
    Inbound false (VDict false [(VStr $"1", VInt 4); (VStr $"01", VInt 7)])
  = fails_with [$"(map)"]
      (VDict false [(VStr $"1", VErr (Err CValidation [VDict false [(VStr $"token", VStr $"minimum")]]
                                          [$"(map)"; $"[1]"] None true));
                    (VStr $"01", VInt 7)]).
Proof. reflexivity. Qed.
