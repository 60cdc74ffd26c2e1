(** Property theorems proved in SeqProofs.v (generated by tools/mkprops.py). *)
From Verif Require Import Spec Demo SeqProofs.

(** C19.  A sequence accepts exactly the lists within the length bounds whose items are all
    accepted by the item field at their index, pairwise different if the sequence is unique; the
    result lists the results of the items in order. *)
Theorem C19_sequence_accepts :
  forall E desc recon n p item mn mx u partial ph ser anc l r,
    p_preprocessor p = None -> defined E item ->
    let path := path_of p (KSequence item mn mx u) anc in
    let run i x := process_gen E desc recon n item false ph ser (path ++ [index_seg i]) x in
    (process_gen E desc recon n (Fld p (KSequence item mn mx u)) partial ph ser anc (VList l) = Ok r
     <-> at_least Z.le mn (Z.of_nat (length l)) /\ at_most Z.le mx (Z.of_nat (length l))
         /\ exists rs, r = VList rs
              /\ pointwise (fun i x y => run i x = Ok y) l rs
              /\ (u = true ->
                  Forall (fun y => hashable y = true) rs
                  /\ forall i j x y, (i < j)%nat -> nth_error rs i = Some x -> nth_error rs j = Some y ->
                                     veq (e_local E) y x = false)).
Proof. exact sequence_accepts. Qed.
Print Assumptions C19_sequence_accepts.

(* [[5, 7]] is accepted by a unique sequence of integers of at least 5 with two or three items. *)
Example C19_accepts_example :
  run0 (Fld p0 (KSequence (Fld p0 (KInteger (Some 5%Z) None)) (Some 2%Z) (Some 3%Z) true))
    Inbound false (VList [VInt 5; VInt 7]) = Ok (VList [VInt 5; VInt 7]).
Proof. reflexivity. Qed.

(** C19.  The rejections: a value that is not a list, a list too short or too long gives the one
    token; if some item is rejected the error structure has the length of the list, with the error of
    the item exactly at the positions of rejected items and the result at the others. *)
Theorem C19_sequence_errors :
  forall E desc recon n p item mn mx u partial ph ser anc v,
    p_preprocessor p = None -> defined E item ->
    let path := path_of p (KSequence item mn mx u) anc in
    let run i x := process_gen E desc recon n item false ph ser (path ++ [index_seg i]) x in
    let out := process_gen E desc recon n (Fld p (KSequence item mn mx u)) partial ph ser anc v in
    ((forall l, v <> VList l) -> v <> VNone -> out = invalid_type path)
    /\ (forall l m, v = VList l -> mn = Some m -> (Z.of_nat (length l) < m)%Z ->
        out = fails path $"min_length")
    /\ (forall l m, v = VList l -> at_least Z.le mn (Z.of_nat (length l)) -> mx = Some m ->
        (m < Z.of_nat (length l))%Z -> out = fails path $"max_length")
    /\ (forall l, v = VList l ->
        at_least Z.le mn (Z.of_nat (length l)) -> at_most Z.le mx (Z.of_nat (length l)) ->
        (forall i x, nth_error l i = Some x -> orderly (run i x)) ->
        (exists i x, nth_error l i = Some x /\ rejected (run i x)) ->
        exists es, out = fails_with path (VList es)
                   /\ pointwise (fun i x e => recorded (run i x) e) l es).
Proof. exact sequence_errors. Qed.
Print Assumptions C19_sequence_errors.

(* The two items that are not integers of at least 5 are reported at their positions. *)
Example C19_errors_example :
  run0 (Fld p0 (KSequence (Fld p0 (KInteger (Some 5%Z) None)) None None false))
    Inbound false (VList [VInt 5; VInt 3; VStr $"x"])
  = fails_with [$"(sequence)"]
      (VList [VInt 5;
              VErr (Err CValidation [VDict false [(VStr $"token", VStr $"minimum")]]
                        [$"(sequence)"; $"[1]"] None true);
              VErr (Err CInvalidType [VDict false [(VStr $"token", VStr $"invalid")]]
                        [$"(sequence)"; $"[2]"] None true)]).
Proof. reflexivity. Qed.

(** C20.  In what a unique sequence returns no two items are equal. *)
Theorem C20_sequence_unique_result :
  forall E desc recon n p item mn mx partial ph ser anc l r,
    p_preprocessor p = None -> defined E item ->
    process_gen E desc recon n (Fld p (KSequence item mn mx true)) partial ph ser anc (VList l) = Ok r ->
    exists rs, r = VList rs
      /\ forall i j x y, (i < j)%nat -> nth_error rs i = Some x -> nth_error rs j = Some y ->
                         veq (e_local E) y x = false.
Proof. exact sequence_unique_result. Qed.
Print Assumptions C20_sequence_unique_result.

(** C20.  If every item is accepted, with hashable results two of which are equal, the unique
    sequence is rejected with the token [duplicate]; a result that cannot be hashed is a TypeError. *)
Theorem C20_sequence_unique_rejects :
  forall E desc recon n p item mn mx partial ph ser anc l rs,
    p_preprocessor p = None -> defined E item ->
    let path := path_of p (KSequence item mn mx true) anc in
    let run i x := process_gen E desc recon n item false ph ser (path ++ [index_seg i]) x in
    let out := process_gen E desc recon n (Fld p (KSequence item mn mx true)) partial ph ser anc (VList l) in
    at_least Z.le mn (Z.of_nat (length l)) -> at_most Z.le mx (Z.of_nat (length l)) ->
    pointwise (fun i x y => run i x = Ok y) l rs ->
    (Forall (fun y => hashable y = true) rs ->
     (exists i j x y, (i < j)%nat /\ nth_error rs i = Some x /\ nth_error rs j = Some y
                      /\ veq (e_local E) y x = true) ->
     out = fails path $"duplicate")
    /\ ((exists y, In y rs /\ hashable y = false) -> out = Raise (XPy TypeError)).
Proof. exact sequence_unique_rejects. Qed.
Print Assumptions C20_sequence_unique_rejects.

(* 1 and True are equal, so the result of this sequence of anything is rejected. *)
Example C20_example :
  run0 (Fld p0 (KSequence (Fld p0 KField) None None true)) Inbound false
    (VList [VInt 1; VStr $"a"; VBool true])
  = fails [$"(sequence)"] $"duplicate".
Proof. reflexivity. Qed.

(** C20.  The values without a hash are lists, dicts, surrogates, signalling NaNs and the tuples that
    hold one of these at any depth; every other value has one. *)
Theorem C20_hashable_exact :
  forall v, hashable v = true <-> ~ unhashable v.
Proof. exact hashable_exact. Qed.
Print Assumptions C20_hashable_exact.

(* A pair with a list inside is a TypeError for a unique sequence. *)
Example C20_unhashable_example :
  run0 (Fld p0 (KSequence (Fld p0 KField) None None true)) Inbound false
    (VList [VInt 1; VTuple [VInt 2; VTuple [VList []]]])
  = Raise (XPy TypeError)
  /\ unhashable (VTuple [VInt 2; VTuple [VList []]]).
Proof.
  split; [reflexivity|]. apply (unhashable_tuple _ (VTuple [VList []])); [cbn; auto|].
  apply (unhashable_tuple _ (VList [])); [cbn; auto|constructor].
Qed.

(** C23.  A tuple field accepts exactly the lists and tuples with one value per field, each
    accepted by its field at its index; the result is the tuple of the results. *)
Theorem C23_tuple_accepts :
  forall E desc recon n p fs partial ph ser anc v l r,
    p_preprocessor p = None -> Forall (defined E) fs -> v = VList l \/ v = VTuple l ->
    let path := path_of p (KTuple fs) anc in
    let run i f x := process_gen E desc recon n f false ph ser (path ++ [index_seg i]) x in
    (process_gen E desc recon n (Fld p (KTuple fs)) partial ph ser anc v = Ok r
     <-> length l = length fs
         /\ exists rs, r = VTuple rs /\ length rs = length l
              /\ forall i f x y, nth_error fs i = Some f -> nth_error l i = Some x ->
                                 nth_error rs i = Some y -> run i f x = Ok y).
Proof. exact tuple_accepts. Qed.
Print Assumptions C23_tuple_accepts.

(* A pair of an integer and a text. *)
Example C23_accepts_example :
  run0 (Fld p0 (KTuple [Fld p0 (KInteger None None); Fld p0 (KText None None None true)]))
    Inbound false (VList [VInt 5; VStr $" a "]) = Ok (VTuple [VInt 5; VStr $"a"]).
Proof. reflexivity. Qed.

(** C23.  The rejections of a tuple field: wrong type, wrong number of values, or one entry per
    value, with the error of the value exactly at the positions of the rejected ones. *)
Theorem C23_tuple_errors :
  forall E desc recon n p fs partial ph ser anc v,
    p_preprocessor p = None -> Forall (defined E) fs ->
    let path := path_of p (KTuple fs) anc in
    let run i f x := process_gen E desc recon n f false ph ser (path ++ [index_seg i]) x in
    let out := process_gen E desc recon n (Fld p (KTuple fs)) partial ph ser anc v in
    ((forall l, v <> VList l) -> (forall l, v <> VTuple l) -> v <> VNone -> out = invalid_type path)
    /\ (forall l, v = VList l \/ v = VTuple l -> length l <> length fs -> out = fails path $"length")
    /\ (forall l, v = VList l \/ v = VTuple l -> length l = length fs ->
        (forall i f x, nth_error fs i = Some f -> nth_error l i = Some x -> orderly (run i f x)) ->
        (exists i f x, nth_error fs i = Some f /\ nth_error l i = Some x /\ rejected (run i f x)) ->
        exists es, out = fails_with path (VList es) /\ length es = length l
          /\ forall i f x e, nth_error fs i = Some f -> nth_error l i = Some x ->
                             nth_error es i = Some e -> recorded (run i f x) e).
Proof. exact tuple_errors. Qed.
Print Assumptions C23_tuple_errors.

(* The second value is not a text; a pair of three values has the wrong length. *)
Example C23_errors_example :
  run0 (Fld p0 (KTuple [Fld p0 (KInteger None None); Fld p0 (KText None None None true)]))
    Inbound false (VTuple [VInt 5; VInt 6])
  = fails_with [$"(tuple)"]
      (VList [VInt 5; VErr (Err CInvalidType [VDict false [(VStr $"token", VStr $"invalid")]]
                                [$"(tuple)"; $"[1]"] None true)])
  /\ run0 (Fld p0 (KTuple [Fld p0 (KInteger None None); Fld p0 (KText None None None true)]))
    Inbound false (VTuple [VInt 5; VInt 6; VInt 7]) = fails [$"(tuple)"] $"length".
Proof. split; reflexivity. Qed.

(** C30.  A union returns the outcome, success or not, of the first of its fields that does not
    raise InvalidTypeError; if all of them do, it raises InvalidTypeError itself. *)
Theorem C30_union_exact :
  forall E desc recon n p fs partial ph ser anc v,
    Forall (defined E) fs -> v <> VNone ->
    let path := path_of p (KUnion fs) anc in
    let run f := process_gen E desc recon n f false ph ser path v in
    let out := process_gen E desc recon n (Fld p (KUnion fs)) partial ph ser anc v in
    let wrong_type f := exists e, run f = Raise (XErr e) /\ er_cls e = CInvalidType in
    (forall before f after, fs = before ++ f :: after -> Forall wrong_type before -> ~ wrong_type f ->
       out = run f)
    /\ (Forall wrong_type fs -> out = invalid_type path).
Proof. exact union_exact. Qed.
Print Assumptions C30_union_exact.

(* [Integer(minimum=5) | Integer | Text]: 3 is rejected by the first field with a ValidationError,
   so the second, which would accept it, is not reached; a text reaches the third; a float none. *)
Example C30_example :
  let u := Fld p0 (KUnion [Fld p0 (KInteger (Some 5%Z) None); Fld p0 (KInteger None None);
                           Fld p0 (KText None None None true)]) in
  run0 u Inbound false (VInt 3) = fails [$"(union)"] $"minimum"
  /\ run0 u Inbound false (VStr $"x") = Ok (VStr $"x")
  /\ run0 u Inbound false (VFloat (S754_zero false)) = invalid_type [$"(union)"].
Proof. repeat split; reflexivity. Qed.
