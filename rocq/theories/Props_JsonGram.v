(** Property theorems proved in JsonGramProofs.v (generated by tools/mkprops.py). *)
From Verif Require Import Spec Demo JsonSpec JsonGramSpec JsonGramProofs.
Open Scope N_scope.

(** C74.  Reading a text as JSON gives a value exactly when the text belongs to the grammar of JSON
    (RFC 8259, with the words NaN, Infinity and -Infinity) with that meaning: white space is blanks,
    tabs, line feeds and carriage returns, and nothing else is accepted; of members with equal names the
    last counts; escaped pairs of surrogates are one character. *)
Theorem C74_json_grammar :
  forall E t v, json_unserialize E t = Ok v <-> jdocument E v t.
Proof. exact json_grammar. Qed.
Print Assumptions C74_json_grammar.

Example C74_grammar_example : json_unserialize env0 (13 :: $"{ ""a"" :[1,2], ""a"":-0 }") = Ok (VDict false [(VStr $"a", VInt 0)])
  /\ json_unserialize env0 (11 :: $"1") = py ValueError.
Proof. vm_compute. auto. Qed.
