(** Property theorems proved in MsgProofs.v (generated by tools/mkprops.py). *)
From Verif Require Import MsgSpec Spec Demo MsgProofs.

(** C79.  Every token that a field reports (see [tells] in Spec.v and [reports] in MsgSpec.v) has a
    title and a message, and the message is built without any exception: it calls the field by its
    name or ['unknown-field'], and says the bounds, lengths, values and names of the field and of the
    key concerned, word for word as in [wording]. *)
Theorem C79_message_built :
  forall E repr fixed p (k : kind) c tok who key,
    reports p k c tok -> called p who ->
    exists title message,
      wording E repr fixed who k tok key = Some (title, message)
      /\ construct_error E repr fixed p k tok (arguments E repr k tok key)
         = Ok (message_entry tok title message).
Proof. exact message_built. Qed.
Print Assumptions C79_message_built.

Example C79_message_built_example :
  reports (p_named $"name") (KText None (Some 2%Z) None true : kind) CValidation $"min_length"
  /\ called (p_named $"name") $"name"
  /\ construct_error env0 (fun _ => $"?") (fun _ => $"?") (p_named $"name") (KText None (Some 2%Z) None true : kind) $"min_length"
       (arguments env0 (fun _ => $"?") (KText None (Some 2%Z) None true : kind) $"min_length" VNone)
     = Ok (message_entry $"min_length" $"minimum length" $"name must contain at least 2 non-whitespace characters").
Proof.
  split; [left; right; split; [reflexivity|right; left; split; [discriminate|reflexivity]]|].
  split; [left; split; [discriminate|reflexivity]|vm_compute; reflexivity].
Qed.

(** C79.  Every error without structure that a run of an ordinary schema raises, or that is nested
    at any depth in the error it raises, is one token reported by a field that occurs in the schema, and
    the message about it is built. *)
Theorem C79_messages_of_a_run :
  forall E desc recon n p k partial ph ser anc v e x repr fixed,
    throughout E ordinary (Fld p k) ->
    process_gen E desc recon n (Fld p k) partial ph ser anc v = Raise (XErr e) ->
    within x e -> er_structure x = None ->
    exists q j tok,
      part E (Fld q j) (Fld p k)
      /\ er_errors x = [VDict false [(VStr $"token", VStr tok)]]
      /\ reports q j (er_cls x) tok
      /\ forall who key, called q who ->
           exists title message,
             wording E repr fixed who j tok key = Some (title, message)
             /\ construct_error E repr fixed q j tok (arguments E repr j tok key)
                = Ok (message_entry tok title message).
Proof. exact messages_of_a_run. Qed.
Print Assumptions C79_messages_of_a_run.

(* An integer below its minimum in a sequence. *)
Example C79_messages_of_a_run_example :
  let g := Fld (p_named $"age") (KInteger (Some 18%Z) None) in
  let f := KSequence g None None false in
  let x := own_err CValidation [$"(sequence)"; $"[1]"] $"minimum" in
  throughout env0 ordinary (Fld p0 f)
  /\ (exists e, run0 (Fld p0 f) Inbound false (VList [VInt 20; VInt 17]) = Raise (XErr e) /\ within x e)
  /\ wording env0 (fun _ => $"?") (fun _ => $"?") $"age" (KInteger (Some 18%Z) None : kind) $"minimum" VNone
     = Some ($"minimum value", $"age must be greater then or equal to 18").
Proof.
  split; [|split].
  - split; [|discriminate]. constructor; [reflexivity|]. intros g [<-|[]]. constructor; [exact I|intros g []].
  - eexists. split; [reflexivity|]. eapply within_nested; [reflexivity|right; left; reflexivity|constructor].
  - vm_compute. reflexivity.
Qed.

(** C79.  Without the values at hand, which is so where a constant is not met and where a
    preprocessor raises (/repo/scheme/field.py:460-463), the error 'invalid' can be built for every
    field but an enumeration: there KeyError escapes instead. *)
Theorem C79_invalid_without_values :
  forall E repr fixed p (k : kind) who,
    called p who ->
    ((exists l ig, k = KEnumeration l ig)
     -> construct_error E repr fixed p k $"invalid" [] = py KeyError)
    /\ ((forall l ig, k <> KEnumeration l ig)
        -> exists title message,
             wording E repr fixed who k $"invalid" VNone = Some (title, message)
             /\ construct_error E repr fixed p k $"invalid" [] = Ok (message_entry $"invalid" title message)).
Proof. exact invalid_without_values. Qed.
Print Assumptions C79_invalid_without_values.

Example C79_invalid_without_values_example :
  called p0 $"unknown-field"
  /\ construct_error env0 (fun _ => $"?") (fun _ => $"?") p0 (KEnumeration [VInt 1] None : kind) $"invalid" [] = py KeyError
  /\ construct_error env0 (fun _ => $"?") (fun _ => $"?") p0 (KBoolean : kind) $"invalid" []
     = Ok (message_entry $"invalid" $"invalid value" $"unknown-field must be a boolean value").
Proof. split; [reflexivity|]. split; vm_compute; reflexivity. Qed.

(** C79.  Formatting a message replaces every "%(name)c" of the template by the parameter of that
    name, shown as text (s), by its representation (r), as an integer (d) or as a fixed-point number
    (f), and "%%" by "%", and leaves every other character as it is; it succeeds exactly if the template
    consists of such parts. *)
Theorem C79_template_filled :
  forall E repr fixed params template text,
    percent E repr fixed SText template params = Ok text
    <-> filled E repr fixed params template text.
Proof. exact template_filled. Qed.
Print Assumptions C79_template_filled.

Example C79_template_example :
  percent env0 (fun _ => []) (fun _ => []) SText $"%(field)s: 100%% of %(n)d" [($"field", VStr $"x"); ($"n", VInt 7)]
    = Ok $"x: 100% of 7"
  /\ percent env0 (fun _ => []) (fun _ => []) SText $"%(n)d" [($"n", VStr $"x")] = py TypeError.
Proof. split; vm_compute; reflexivity. Qed.

(** C79.  A field made with the parameter 'errors' reports a token with the title and the message of
    the last error given for it, and with those of its class if none is given or if it is an Email; the message is filled
    with what the caller gives, and with the name of the field unless the caller says what it is called. *)
Theorem C79_errors_given :
  forall E repr fixed p (k : kind) errors tok e who given entry,
    error_of k errors tok e -> fe_token e = tok -> called p who ->
    (construct_given E repr fixed p k errors tok given = Ok entry
     <-> exists text, filled E repr fixed (with_field who given) (fe_message e) text
                      /\ entry = message_entry tok (fe_title e) text).
Proof. exact errors_given. Qed.
Print Assumptions C79_errors_given.

Example C79_errors_given_example :
  let e1 := {| fe_token := $"invalid"; fe_title := $"t1"; fe_message := $"m1" |} in
  let e2 := {| fe_token := $"invalid"; fe_title := $"t2"; fe_message := $"no %(field)s" |} in
  error_of KBoolean [e1; e2] $"invalid" e2 /\ called p0 $"unknown-field"
  /\ construct_given env0 (fun _ => []) (fun _ => []) p0 (KBoolean : kind) [e1; e2]
       $"invalid" [] = Ok (message_entry $"invalid" $"t2" $"no unknown-field")
  /\ construct_given env0 (fun _ => []) (fun _ => []) p0 (KBoolean : kind) [e1; e2]
       $"invalid" [($"field", VStr $"x")] = Ok (message_entry $"invalid" $"t2" $"no x").
Proof.
  split; [left; split; [intros (m & x & mn & mx & H); discriminate|]; exists [{| fe_token := $"invalid"; fe_title := $"t1"; fe_message := $"m1" |}], []; split; [reflexivity|];
          split; [reflexivity|intros []]|].
  split; [reflexivity|]. split; vm_compute; reflexivity.
Qed.

(** C79.  As stated the claim fails: the message about a surrogate that is not among the valid ones
    asks for a parameter under another name than the one it is given
    (/repo/scheme/fields/surrogate.py:18, 67), so KeyError escapes whatever the field. *)
Theorem C79_surrogate_message_refuted :
  exists tok, forall E repr fixed p valid key,
    In tok (map fst (error_table (KSurrogate valid : kind)))
    /\ construct_error E repr fixed p (KSurrogate valid : kind) tok
         (arguments E repr (KSurrogate valid : kind) tok key) = py KeyError.
Proof. exact surrogate_message_refuted. Qed.
Print Assumptions C79_surrogate_message_refuted.

(** C79.  Nor does the message about the bound of a DateTime field name the bound: the field keeps it
    in local time, and the message shows that reading with a 'Z'. *)
Theorem C79_datetime_bound_message_refuted :
  exists E cl p mn,
    init E cl CDateTime [($"minimum", VDateTime (DateTime (Date 2020 1 1) (Tod 0 0 0 0) (Some TzUTC)))]
      = Ok (Fld p (KDateTime (Some mn) None false))
    /\ forall repr fixed key,
         construct_error E repr fixed p (KDateTime (Some mn) None false : kind) $"minimum"
           (arguments E repr (KDateTime (Some mn) None false : kind) $"minimum" key)
         = Ok (message_entry $"minimum" $"minimum value" $"unknown-field must not occur before 2020-01-01T01:00:00Z").
Proof. exact datetime_bound_message_refuted. Qed.
Print Assumptions C79_datetime_bound_message_refuted.

(** C45.  An Email, whatever errors its constructor or [clone] is given, reports those of its class: a
    clone has the errors of the original. *)
Theorem C45_clone_errors_email :
  forall E repr fixed mu ex mn mx own given p errors token args,
    let k : kind := KEmail mu ex mn mx in
    clone_errors k own given = Ok own
    /\ construct_given E repr fixed p k errors token args = construct_given E repr fixed p k [] token args.
Proof. exact clone_errors_email. Qed.
Print Assumptions C45_clone_errors_email.

Example C45_email_errors_example :
  let k : kind := KEmail false false None None in
  exists own, init_errors (error_table (KText None None None false : kind)) (ErrorList [{| fe_token := $"pattern"; fe_title := $"invalid value"; fe_message := $"no" |}]) = Ok (Some own)
  /\ clone_errors k (Some own) None = Ok (Some own) /\ clone_errors k (Some own) (Some []) = Ok (Some own).
Proof. eexists. split; [vm_compute; reflexivity|]. split; reflexivity. Qed.

(** C45.  The errors given to a constructor cannot be cloned: a field made with some, of any class but
    Email, raises AttributeError when cloned, unless other errors are given; a field made without is
    cloned without. *)
Theorem C45_clone_errors_exact :
  forall (k : kind) errors own,
    (forall m x mn mx, k <> KEmail m x mn mx) ->
    init_errors (error_table k) (ErrorList errors) = Ok own ->
    (errors <> [] -> clone_errors k own None = py AttributeError)
    /\ (errors = [] -> clone_errors k own None = Ok None)
    /\ forall others, clone_errors k own (Some others) = init_errors (error_table k) (ErrorList others).
Proof. exact clone_errors_exact. Qed.
Print Assumptions C45_clone_errors_exact.

Example C45_errors_example :
  let e := {| fe_token := $"invalid"; fe_title := $"t"; fe_message := $"no %(field)s" |} in
  exists own, init_errors (error_table (KBoolean : kind)) (ErrorList [e]) = Ok (Some own)
  /\ clone_errors (KBoolean : kind) (Some own) None = py AttributeError.
Proof. eexists. split; [reflexivity|]. vm_compute. reflexivity. Qed.

(** C45.  As stated the claim fails for fields with errors of their own. *)
Theorem C45_clone_errors_refuted :
  exists (k : kind) e own,
    init_errors (error_table k) (ErrorList [e]) = Ok (Some own) /\ clone_errors k (Some own) None = py AttributeError.
Proof. exact clone_errors_refuted. Qed.
Print Assumptions C45_clone_errors_refuted.
