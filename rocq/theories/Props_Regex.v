(** Property theorems proved in RegexProofs.v (generated by tools/mkprops.py). *)
From Verif Require Import Spec Demo RegexSpec RegexProofs.
Open Scope N_scope.

(** C15.  A token field accepts exactly the texts that are colon separated segments (of word characters,
    dots, plus and minus, starting and ending with a word character), with one optional newline at the end,
    the number of segments being as required; everything else is rejected. *)
Theorem C15_token_exact :
  forall E desc recon n p segments partial ph ser anc s,
    plain p ->
    let out := process_gen E desc recon n (Fld p (KToken segments)) partial ph ser anc (VStr s) in
    let path := path_of p (KToken segments) anc in
    let well_formed segs := opt_newline (token_of E segs) s in
    (forall segs, well_formed segs -> segments = None \/ segments = Some (Z.of_nat (length segs)) -> out = Ok (VStr s))
    /\ (forall segs, well_formed segs -> segments <> None -> segments <> Some (Z.of_nat (length segs)) ->
          out = fails path $"invalid")
    /\ ((forall segs, ~ well_formed segs) -> out = invalid_type path).
Proof. exact token_exact. Qed.
Print Assumptions C15_token_exact.

Example C15_example :
  token_of env0 [$"a.b"; $"c"] $"a.b:c"
  /\ run0 (Fld p0 (KToken (Some 2%Z))) Inbound true (VStr $"a.b:c") = Ok (VStr $"a.b:c")
  /\ run0 (Fld p0 (KToken (Some 3%Z))) Inbound true (VStr $"a.b:c") = fails [$"(token)"] $"invalid"
  /\ run0 (Fld p0 (KToken None)) Inbound true (VStr $"a.:c") = invalid_type [$"(token)"].
Proof.
  split; [|repeat split; reflexivity]. split.
  - constructor; [|constructor; [|constructor]]; (split; [rewrite Forall_forall; intros c Hc; cbn in *; unfold is_word; lia|]).
    + split; [exists 97%N, $".b"|exists 98%N, $"a."]; (split; [reflexivity|unfold is_word; lia]).
    + split; exists 99%N, []; (split; [reflexivity|unfold is_word; lia]).
  - exists $"a.b", [$"c"]. split; reflexivity.
Qed.

(** C15.  Other values are rejected. *)
Theorem C15_token_not_text :
  forall E desc recon n p segments partial ph ser anc v,
    plain p -> v <> VNone -> (forall s, v <> VStr s) ->
    process_gen E desc recon n (Fld p (KToken segments)) partial ph ser anc v
    = invalid_type (path_of p (KToken segments) anc).
Proof. exact token_not_text. Qed.
Print Assumptions C15_token_not_text.

Example C15_not_text_example :
  run0 (Fld p0 (KToken None)) Inbound true (VInt 5) = invalid_type [$"(token)"].
Proof. reflexivity. Qed.

(** C16.  A UUID field accepts exactly the texts of 8-4-4-4-12 lower case hexadecimal digits, with one
    optional newline at the end. *)
Theorem C16_uuid_exact :
  forall E desc recon n p partial ph ser anc v,
    plain p -> v <> VNone ->
    let out := process_gen E desc recon n (Fld p KUUID) partial ph ser anc v in
    (forall s, v = VStr s -> opt_newline uuid_text s -> out = Ok v)
    /\ ((forall s, v = VStr s -> ~ opt_newline uuid_text s) -> out = invalid_type (path_of p KUUID anc)).
Proof. exact uuid_exact. Qed.
Print Assumptions C16_uuid_exact.

Example C16_example :
  uuid_text $"0a1b2c3d-0000-ffff-9e9e-0123456789ab"
  /\ run0 (Fld p0 KUUID) Inbound true (VStr $"0a1b2c3d-0000-ffff-9e9e-0123456789ab")
     = Ok (VStr $"0a1b2c3d-0000-ffff-9e9e-0123456789ab")
  /\ run0 (Fld p0 KUUID) Inbound true (VStr $"0A1b2c3d-0000-ffff-9e9e-0123456789ab") = invalid_type [$"(uuid)"].
Proof.
  split; [|split; reflexivity].
  exists $"0a1b2c3d", $"0000", $"ffff", $"9e9e", $"0123456789ab".
  split; [reflexivity|]. unfold hex_group, lower_hex.
  repeat match goal with |- _ /\ _ => split end; try reflexivity; rewrite Forall_forall; intros c Hc; cbn in Hc; lia.
Qed.

(** C17.  Email (not extended): the normal form [t] of a text (separators trimmed, lower case, and in
    multiple mode runs of separators turned into commas) exists and is unique; processing gives [t]
    exactly when it is empty or an address (a comma separated list of addresses in multiple mode) and
    meets the length bounds; otherwise the token says which constraint failed. *)
Theorem C17_email_exact :
  forall E desc recon n p multiple mn mx partial ph ser anc s,
    plain p ->
    (forall c, (128 <= c)%N -> e_ulower E c <> [] /\ ~ In 10%N (e_ulower E c)) ->
    let k := KEmail multiple false mn mx in
    let out := process_gen E desc recon n (Fld p k) partial ph ser anc (VStr s) in
    let path := path_of p k anc in
    (exists! t, email_normal E multiple s t)
    /\ forall t, email_normal E multiple s t ->
        let len := Z.of_nat (length t) in
        (forall r, out = Ok r <->
                   r = VStr t /\ at_least Z.le mn len /\ at_most Z.le mx len /\ email_text multiple t)
        /\ (~ at_least Z.le mn len -> out = fails path $"min_length")
        /\ (at_least Z.le mn len -> ~ at_most Z.le mx len -> out = fails path $"max_length")
        /\ (at_least Z.le mn len -> at_most Z.le mx len -> ~ email_text multiple t ->
             out = fails path $"pattern").
Proof. exact email_exact. Qed.
Print Assumptions C17_email_exact.

Example C17_example :
  address $"joe.b@example.com"
  /\ run0 (Fld p0 (KEmail false false None None)) Inbound true (VStr $" Joe.B@Example.COM;") = Ok (VStr $"joe.b@example.com")
  /\ run0 (Fld p0 (KEmail true false None None)) Inbound true (VStr $"a@b.cc; D@e.ff")= Ok (VStr $"a@b.cc,d@e.ff")
  /\ run0 (Fld p0 (KEmail false false None None)) Inbound true (VStr $"a@b.c") = fails [$"(email)"] $"pattern"
  /\ (forall c, (128 <= c)%N -> e_ulower env0 c <> [] /\ ~ In 10%N (e_ulower env0 c)).
Proof.
  split; [|split; [reflexivity|]; split; [reflexivity|]; split; [reflexivity|]; intros c Hc; cbn; split; [discriminate|lia]].
  exists $"joe.b", $"example.com". split; [reflexivity|]. split.
  - left. exists [$"joe"; $"b"]. split; [|exists $"joe", [$"b"]; split; reflexivity].
    constructor; [|constructor; [|constructor]]; (split; [discriminate|]);
      rewrite Forall_forall; intros c Hc; cbn in Hc; left; right; lia.
  - exists [$"example"], $"com". split; [discriminate|]. split; [|split; [|split; [cbn; lia|reflexivity]]].
    + constructor; [|constructor]. split; [discriminate|]. rewrite Forall_forall; intros c Hc; cbn in Hc; left; right; lia.
    + rewrite Forall_forall; intros c Hc; cbn in Hc; right; lia.
Qed.

(** C17.  Email (not extended) rejects what is neither text nor null: its preprocessor fails. *)
Theorem C17_email_not_text :
  forall E desc recon n p multiple mn mx partial ph ser anc v,
    plain p -> v <> VNone -> (forall s, v <> VStr s) ->
    let k := KEmail multiple false mn mx in
    process_gen E desc recon n (Fld p k) partial ph ser anc v = invalid_type (path_of p k anc).
Proof. exact email_not_text. Qed.
Print Assumptions C17_email_not_text.

Example C17_not_text_example :
  run0 (Fld p0 (KEmail false false None None)) Inbound true (VInt 5) = invalid_type [$"(email)"].
Proof. reflexivity. Qed.

(** C17.  An extended Email field takes the text as it is: nothing, an address, or a display name followed
    by spaces and an address in angle brackets, with one optional newline at the end. *)
Theorem C17_email_extended_exact :
  forall E desc recon n p partial ph ser anc s,
    plain p ->
    let k := KEmail false true None None in
    let out := process_gen E desc recon n (Fld p k) partial ph ser anc (VStr s) in
    let good := opt_newline (fun t => t = [] \/ address t \/ named_address t) s in
    (good -> out = Ok (VStr s)) /\ (~ good -> out = fails (path_of p k anc) $"pattern").
Proof. exact email_extended_exact. Qed.
Print Assumptions C17_email_extended_exact.

Example C17_extended_example :
  run0 (Fld p0 (KEmail false true None None)) Inbound true (VStr $"Joe B <joe@b.com>") = Ok (VStr $"Joe B <joe@b.com>")
  /\ run0 (Fld p0 (KEmail false true None None)) Inbound true (VStr $"Joe B<joe@b.com>") = fails [$"(email)"] $"pattern".
Proof. split; reflexivity. Qed.
