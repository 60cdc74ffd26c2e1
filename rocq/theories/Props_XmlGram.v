(** Property theorems proved in XmlGramProofs.v (generated by tools/mkprops.py). *)
From Verif Require Import Spec Demo XmlText XmlGramSpec XmlGramProofs.
Open Scope N_scope.

(** C64.  The parser reads exactly the documents of the grammar of XML (as far as it is modelled), each as
    the element it writes: attributes with white space and line ends normalised and no attribute twice, line
    ends in texts as LF, references as the characters they stand for, tags that match, and white space only
    around the one element. *)
Theorem C64_xml_grammar :
  forall s e, xml_parse s = Ok e <-> xdocument s e.
Proof. exact xml_grammar. Qed.
Print Assumptions C64_xml_grammar.

Example C64_grammar_example :
  xdocument ($"<a x='1" ++ [10] ++ $"2'>t&#x41;<b/>z</a >" ++ [13; 10])
    (Elem $"a" [($"x", $"1 2")] (Some $"tA") [Elem $"b" [] None []])
  /\ ~ xdocument $"<a x='1' x='2'/>" (Elem $"a" [($"x", $"1"); ($"x", $"2")] None [])
  /\ ~ (exists e, xdocument $"<a>]]></a>" e).
Proof.
  split; [apply C64_xml_grammar; reflexivity|]. split; [intros H; apply C64_xml_grammar in H; discriminate H|].
  intros [e H]. apply C64_xml_grammar in H. discriminate H.
Qed.
