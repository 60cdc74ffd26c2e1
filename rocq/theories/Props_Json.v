(** Property theorems proved in JsonProofs.v (generated by tools/mkprops.py). *)
From Verif Require Import Spec Demo JsonSpec JsonProofs.
Open Scope N_scope.

(** C74.  A value that JSON can carry comes back from [json.loads] of what [json.dumps] wrote:
    null, booleans, numbers and texts unchanged, lists and tuples as lists, dicts as plain dicts with
    the entries in the same order and the keys as texts.  The text has only printable ASCII. *)
Theorem C74_json_roundtrip :
  forall E v w,
    json E v w ->
    exists t, json_serialize E v = Ok t /\ (forall c, In c t -> 32 <= c <= 126)
              /\ json_unserialize E t = Ok w.
Proof. exact json_roundtrip. Qed.
Print Assumptions C74_json_roundtrip.

Definition env74 : env :=
  {| e_pre := e_pre env0; e_ext := e_ext env0; e_inst := e_inst env0; e_pattern := e_pattern env0; e_local := e_local env0;
     e_pad := true; e_udigit := e_udigit env0; e_uword := e_uword env0; e_ulower := e_ulower env0; e_import := e_import env0;
     e_identify := e_identify env0; e_undef := e_undef env0;
     e_str := fun v => match v with VFloat (S754_finite false _ _) => $"1.5" | VFloat _ => $"-1.5e+300" | _ => $"?" end;
     e_impl := e_impl env0; e_schemas := e_schemas env0; e_compile := e_compile env0; e_repr := e_repr env0;
     e_surrogate := e_surrogate env0; e_identity := e_identity env0 |}.
Definition doc74 : val :=
  VDict true [(VStr $"b", VTuple [VInt (-20); VNone; VFloat (S754_finite false 6755399441055744 (-52))]);
              (VInt 7, VDict false []); (VBool true, VList [VFloat (S754_finite true 5043654821435445 945); VFloat S754_nan]);
              (VNone, VStr [34; 92; 10; 233; 128512; 56832; 55357])].
Definition back74 : val :=
  VDict false [(VStr $"b", VList [VInt (-20); VNone; VFloat (S754_finite false 6755399441055744 (-52))]);
               (VStr $"7", VDict false []); (VStr $"true", VList [VFloat (S754_finite true 5043654821435445 945); VFloat S754_nan]);
               (VStr $"null", VStr [34; 92; 10; 233; 128512; 56832; 55357])].
Ltac digits := split; [discriminate | cbn; intros ? Hin; repeat (destruct Hin as [<- | Hin]; [lia |]); destruct Hin].
Ltac carry := split; [cbn; intros ? Hin; repeat (destruct Hin as [<- | Hin]; [lia |]); destruct Hin
  | let a := fresh in intros a h l b Heq [Hh Hl];
    repeat (destruct a as [|? a]; [cbn in Heq; try discriminate Heq; injection Heq as ? ? _; subst; lia
                                  | cbn in Heq; try discriminate Heq; apply (f_equal (@tl N)) in Heq; cbn in Heq])].
Example C74_prints : prints env74 (S754_finite false 6755399441055744 (-52)) /\ prints env74 (S754_finite true 5043654821435445 945).
Proof.
  split; (split; [|vm_compute; reflexivity]).
  - exists [], [49], [46; 53], []. split; [reflexivity|]. split; [left; reflexivity|]. split; [right; split; [digits|intros r; discriminate]|].
    split; [right; exists [53]; split; [reflexivity|digits]|]. split; [left; reflexivity|discriminate].
  - exists [45], [49], [46; 53], [101; 43; 51; 48; 48]. split; [reflexivity|]. split; [right; reflexivity|].
    split; [right; split; [digits|intros r; discriminate]|]. split; [right; exists [53]; split; [reflexivity|digits]|].
    split; [right; exists [101], [43], [51; 48; 48]; split; [reflexivity|]; split; [left; reflexivity|]; split; [right; right; reflexivity|digits]|discriminate].
Qed.
Example C74_example : json env74 doc74 back74 /\ (do t <- json_serialize env74 doc74; json_unserialize env74 t) = Ok back74.
Proof.
  split; [|vm_compute; reflexivity]. destruct C74_prints as [P1 P2].
  unfold doc74, back74. eapply json_dict; [reflexivity| |].
  2: { cbn [map fst]. repeat (constructor; [cbn; intuition discriminate|]). constructor. }
  constructor; [|constructor; [|constructor; [|constructor; [|constructor]]]]; cbn [fst snd]; (split; [eexists; split; [constructor|split; [carry|reflexivity]]|]).
  - apply json_tuple. constructor; [constructor|]. constructor; [constructor|]. constructor; [apply json_finite; [exact I|exact P1]|constructor].
  - eapply json_dict; [reflexivity|constructor|constructor].
  - apply json_list. constructor; [apply json_finite; [exact I|exact P2]|]. constructor; [|constructor]. apply json_special. intros [].
  - apply json_text. carry.
Qed.
(* Two keys with the same text leave one, and a high surrogate before a low one is read as one character. *)
Example C74_counterexample :
  (do t <- json_serialize env0 (VDict false [(VInt 1, VStr $"a"); (VStr $"1", VStr $"b")]); json_unserialize env0 t) = Ok (VDict false [(VStr $"1", VStr $"b")])
  /\ (do t <- json_serialize env0 (VStr [55357; 56832]); json_unserialize env0 t) = Ok (VStr [128512]).
Proof. split; vm_compute; reflexivity. Qed.

(** C74.  In particular the documents of JSON, lists and plain dicts with text keys, come back
    exactly. *)
Theorem C74_json_documents :
  forall E v,
    document E v ->
    exists t, json_serialize E v = Ok t /\ json_unserialize E t = Ok v.
Proof. exact json_documents. Qed.
Print Assumptions C74_json_documents.

Example C74_documents_example : document env74 back74 /\ (do t <- json_serialize env74 back74; json_unserialize env74 t) = Ok back74.
Proof.
  split; [|vm_compute; reflexivity]. destruct C74_prints as [P1 P2]. unfold back74. apply doc_dict.
  - cbn [map fst]. repeat (constructor; [cbn; intuition discriminate|]). constructor.
  - cbn [In]. intros k v H. repeat destruct H as [H|H]; try contradiction; injection H as <- _; eexists; (split; [reflexivity|carry]).
  - cbn [In]. intros k v H. repeat destruct H as [H|H]; try contradiction; injection H as _ <-.
    + apply doc_list. cbn [In]. intros v H. repeat destruct H as [H|H]; try contradiction; subst v; constructor. intros _. exact P1.
    + apply doc_dict; [constructor|intros ? ? []|intros ? ? []].
    + apply doc_list. cbn [In]. intros v H. repeat destruct H as [H|H]; try contradiction; subst v; constructor; [intros _; exact P2|intros []].
    + constructor. carry.
Qed.

(** C74.  [json.dumps] writes exactly the values made of null, booleans, numbers, texts, lists,
    tuples and dicts with simple keys; any other value inside is a TypeError. *)
Theorem C74_json_refuses :
  forall E v,
    (dumpable v <-> exists t, json_serialize E v = Ok t)
    /\ (~ dumpable v -> json_serialize E v = py TypeError).
Proof. exact json_refuses. Qed.
Print Assumptions C74_json_refuses.

Example C74_refuses_example :
  ~ dumpable (VList [VStr $"a"; VDict false [(VStr $"k", VBytes [1])]])
  /\ json_serialize env0 (VList [VStr $"a"; VDict false [(VStr $"k", VBytes [1])]]) = py TypeError
  /\ json_serialize env0 (VDict false [(VTuple [], VNone)]) = py TypeError.
Proof.
  split; [|split; vm_compute; reflexivity]. intros H. inversion H as [| | | | |? Hl| |? ? Hd]; subst; [|discriminate Hd].
  specialize (Hl _ (or_intror (or_introl eq_refl))). inversion Hl as [| | | | | | |? ? Hd Hx]; subst. injection Hd as <-.
  destruct (Hx _ _ (or_introl eq_refl)) as [_ Hb]. inversion Hb as [| | | | | | |? ? Hd]; subst. discriminate Hd.
Qed.

(** C74.  [json.loads] of any text gives a value or a ValueError. *)
Theorem C74_json_reads_or_refuses :
  forall E t,
    (exists v, json_unserialize E t = Ok v) \/ json_unserialize E t = py ValueError.
Proof. exact json_reads_or_refuses. Qed.
Print Assumptions C74_json_reads_or_refuses.

Example C74_reads_example :
  json_unserialize env0 ($" { ""a"" : [1, -0, 2.5e1, true] , ""a"": ""\u0041\/"" }") = Ok (VDict false [(VStr $"a", VStr $"A/")])
  /\ json_unserialize env0 ($"[1, 2") = py ValueError /\ json_unserialize env0 ($"[1,]") = py ValueError
  /\ json_unserialize env0 ($"01") = py ValueError /\ json_unserialize env0 ($"") = py ValueError.
Proof. repeat split; vm_compute; reflexivity. Qed.

(** C74.  What [json.loads] reads from a text without surrogates is a document of JSON, so
    writing and reading it again changes nothing. *)
Theorem C74_json_reread :
  forall E t v,
    no_surrogates t -> json_unserialize E t = Ok v -> floats_print E v ->
    document E v /\ exists u, json_serialize E v = Ok u /\ json_unserialize E u = Ok v.
Proof. exact json_reread. Qed.
Print Assumptions C74_json_reread.

Definition text74 : str := $" { ""a"" : [1, -0, 25e-1, true] , ""b"": ""\ud83d\ude00\ud83d"" }".
Definition read74 : val :=
  VDict false [(VStr $"a", VList [VInt 1; VInt 0; VFloat (S754_finite false 5629499534213120 (-51)); VBool true]); (VStr $"b", VStr [128512; 55357])].
Definition env74' : env :=
  {| e_pre := e_pre env0; e_ext := e_ext env0; e_inst := e_inst env0; e_pattern := e_pattern env0; e_local := e_local env0;
     e_pad := true; e_udigit := e_udigit env0; e_uword := e_uword env0; e_ulower := e_ulower env0; e_import := e_import env0;
     e_identify := e_identify env0; e_undef := e_undef env0; e_str := fun v => $"2.5";
     e_impl := e_impl env0; e_schemas := e_schemas env0; e_compile := e_compile env0; e_repr := e_repr env0;
     e_surrogate := e_surrogate env0; e_identity := e_identity env0 |}.
Example C74_reread_example :
  no_surrogates text74 /\ json_unserialize env74' text74 = Ok read74 /\ floats_print env74' read74
  /\ json_serialize env74' read74 = Ok ($"{""a"": [1, 0, 2.5, true], ""b"": ""\ud83d\ude00\ud83d""}").
Proof.
  split; [|split; [vm_compute; reflexivity|split; [|vm_compute; reflexivity]]].
  - let t := eval vm_compute in text74 in change text74 with t. intros c Hin. cbn in Hin. repeat (destruct Hin as [<- | Hin]; [lia |]). destruct Hin.
  - unfold read74. apply fp_dict. cbn [In]. intros k v [H|[H|[]]]; injection H as _ <-; [|constructor; exact I].
    apply fp_list. cbn [In]. intros v [<-|[<-|[<-|[<-|[]]]]]; try (apply fp_other; exact I). apply fp_float. intros _. split; [|vm_compute; reflexivity].
    exists [], [50], [46; 53], []. split; [reflexivity|]. split; [left; reflexivity|]. split; [right; split; [digits|intros r; discriminate]|].
    split; [right; exists [53]; split; [reflexivity|digits]|]. split; [left; reflexivity|discriminate].
Qed.
