(** Property theorems proved in B64Proofs.v (generated by tools/mkprops.py). *)
From Verif Require Import Spec Demo B64Proofs.
Open Scope N_scope.

(** C07.  A native byte string is accepted by Binary exactly when its number of bytes is within
    the bounds, unchanged; otherwise [min_length] or [max_length]; anything else but null is an
    InvalidTypeError. *)
Theorem C07_binary_native_exact :
  forall E desc recon n p mn mx partial ph anc,
    plain p ->
    let out v := process_gen E desc recon n (Fld p (KBinary mn mx)) partial ph false anc v in
    let path := path_of p (KBinary mn mx) anc in
    (forall b, let len := Z.of_nat (length b) in
       (forall r, out (VBytes b) = Ok r <->
          r = VBytes b /\ at_least Z.le mn len /\ at_most Z.le mx len)
       /\ (~ at_least Z.le mn len -> out (VBytes b) = fails path $"min_length")
       /\ (at_least Z.le mn len -> ~ at_most Z.le mx len -> out (VBytes b) = fails path $"max_length"))
    /\ (forall v, v <> VNone -> (forall b, v <> VBytes b) -> out v = invalid_type path).
Proof. exact binary_native_exact. Qed.
Print Assumptions C07_binary_native_exact.

(** C07.  Round trip: an accepted byte string is serialized to [4 * ceil(n / 3)] characters of
    the URL-safe alphabet followed by at most two [=], and unserializing gives it back. *)
Theorem C07_binary_round_trip :
  forall E desc recon n p mn mx partial anc b s,
    plain p -> bytes_ok b ->
    process_gen E desc recon n (Fld p (KBinary mn mx)) partial Outbound true anc (VBytes b) = Ok s ->
    exists t k,
      s = VBytes (t ++ repeat 61 k)
      /\ Forall urlsafe_char t /\ (k <= 2)%nat
      /\ (length t + k = 4 * ((length b + 2) / 3))%nat
      /\ process_gen E desc recon n (Fld p (KBinary mn mx)) partial Inbound true anc s = Ok (VBytes b).
Proof. exact binary_round_trip. Qed.
Print Assumptions C07_binary_round_trip.

Example C07_example :
  run0 (Fld p0 (KBinary (Some 1%Z) None)) Outbound true (VBytes [255; 254; 0; 63])
    = Ok (VBytes $"__4APw==")
  /\ run0 (Fld p0 (KBinary (Some 1%Z) None)) Inbound true (VBytes $"__4APw==")
    = Ok (VBytes [255; 254; 0; 63])
  /\ bytes_ok [255; 254; 0; 63].
Proof. repeat split; try reflexivity. repeat constructor. Qed.

(** C08.  REFUTED: malformed base64 makes [process] raise binascii.Error instead of a
    ValidationError. *)
Theorem C08_binary_malformed_refuted :
  exists E desc recon n p b,
    plain p /\ p_nonnull p = false
    /\ process_gen E desc recon n (Fld p (KBinary None None)) false Inbound true [] (VBytes b)
       = Raise (XPy BinasciiError).
Proof. exact binary_malformed_refuted. Qed.
Print Assumptions C08_binary_malformed_refuted.

(** C08.  What holds: for data without padding characters binascii.Error escapes exactly when
    the number of alphabet characters is not a multiple of 4 (other characters are skipped
    silently), and unserialization never raises anything but it and structural errors. *)
Theorem C08_binary_malformed_partial :
  forall E desc recon n p mn mx partial anc,
    plain p ->
    let out v := process_gen E desc recon n (Fld p (KBinary mn mx)) partial Inbound true anc v in
    (forall b, ~ In 61 b ->
       (out (VBytes b) = Raise (XPy BinasciiError)
        <-> (length (filter base64_char b) mod 4 <> 0)%nat))
    /\ (forall v x, out v = Raise (XPy x) -> x = BinasciiError)
    /\ (forall v, v <> VNone -> (forall b, v <> VBytes b) ->
         out v = invalid_type (path_of p (KBinary mn mx) anc)).
Proof. exact binary_malformed_partial. Qed.
Print Assumptions C08_binary_malformed_partial.

Example C08_example :
  run0 (Fld p0 (KBinary None None)) Inbound true (VBytes $"QUJD*R") = Raise (XPy BinasciiError)
  /\ run0 (Fld p0 (KBinary None None)) Inbound true (VBytes $"QU*JD") = Ok (VBytes $"ABC")
  /\ ~ In 61 $"QUJD*R".
Proof.
  repeat split; try reflexivity. cbv. intros H. repeat destruct H as [H|H]; try discriminate. exact H.
Qed.
