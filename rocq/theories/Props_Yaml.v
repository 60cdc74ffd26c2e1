(** Property theorems proved in YamlProofs.v (generated by tools/mkprops.py). *)
From Verif Require Import Spec Demo YamlSpec YamlProofs.
Open Scope N_scope.

(** C62.  A sequence that does not fit on one line is written as one block per item, in order:
    the first line of a block is the indent of the level and a dash, the others are indented further. *)
Theorem C62_yaml_sequence_blocks :
  forall E wrap l level lines,
    wraps wrap -> yaml_value E wrap (VList l) level = Ok (Block lines) ->
    exists blocks, lines = concat blocks /\ Forall2 (fun _ block => opened level $"- " block) l blocks.
Proof. exact yaml_sequence_blocks. Qed.
Print Assumptions C62_yaml_sequence_blocks.

Definition wrap62 (indent line : str) : list str := match line with [] => [] | _ => [indent ++ line] end.
Example C62_wraps : wraps wrap62.
Proof.
  split; [|intros i line H; destruct line; [congruence|discriminate]]. intros i [|c line] out H; [destruct H|].
  destruct H as [<-|[]]. exists (c :: line). reflexivity.
Qed.
Definition items62 : list val :=
  [VList [VStr $"a"; VInt 1]; VDict false [(VStr $"k", VStr ($"x" ++ [10%N] ++ $"y")); (VStr $"b", VList [VNone; VBool true])]; VStr $"- z"].
Example C62_sequence_example :
  yaml_value env0 wrap62 (VList items62) 1
  = Ok (Block [$"  - - a"; $"    - 1"; $"  - b: [null, true]"; $"    k: |"; $"      x"; $"      y"; $"  - '- z'"]).
Proof. vm_compute. reflexivity. Qed.

(** C62.  A structure that is not empty is written as one block per entry, an OrderedDict in its
    order: the first line of a block is the indent of the level, the key and a colon, the others are
    indented further. *)
Theorem C62_yaml_structure_blocks :
  forall E wrap ordered l level lines,
    wraps wrap -> yaml_value E wrap (VDict ordered l) level = Ok (Block lines) ->
    exists entries blocks,
      Permutation l entries /\ (ordered = true -> entries = l) /\ lines = concat blocks
      /\ Forall2 (fun kv block => opened level (text_of E (fst kv) ++ $":") block) entries blocks.
Proof. exact yaml_structure_blocks. Qed.
Print Assumptions C62_yaml_structure_blocks.

Example C62_structure_example :
  yaml_value env0 wrap62 (VDict true [(VStr $"z", VDict false []); (VInt 3, VList [VStr $"a"])]) 1
  = Ok (Block [$"  z: {}"; $"  3:"; $"    - a"])
  /\ yaml_serialize env0 wrap62 (VDict false [(VStr $"z", VDict false []); (VStr $"a", VTuple [VStr $"true"; VStr []])])
     = Ok ($"a:" ++ [10%N] ++ $"  - 'true'" ++ [10%N] ++ $"  - ''" ++ [10%N] ++ $"z: {}").
Proof. split; vm_compute; reflexivity. Qed.

(** C62.  Every value of null, booleans, numbers, dates, datetimes, texts, lists, tuples and dicts can
    be written, if its dicts are ordered or have only text or only integer keys and no text consists of
    line breaks only. *)
Theorem C62_yaml_writes :
  forall E wrap v, wraps wrap -> yaml_fit v -> exists t, yaml_serialize E wrap v = Ok t.
Proof. exact yaml_writes. Qed.
Print Assumptions C62_yaml_writes.

Example C62_writes_example :
  yaml_fit (VDict true [(VNone, VTuple [VStr $"a: b"; VDate {| d_year := 2020; d_month := 1; d_day := 2 |}]); (VStr $"b", VSurr 0%nat None None [(VInt 2, VNone); (VInt 1, VNone)])])
  /\ yaml_serialize env0 wrap62 (VDict true [(VNone, VTuple [VStr $"a: b"; VDate {| d_year := 2020; d_month := 1; d_day := 2 |}]); (VStr $"b", VSurr 0%nat None None [(VInt 2, VNone); (VInt 1, VNone)])])
     = Ok ($"?:" ++ [10%N] ++ $"  - 'a: b'" ++ [10%N] ++ $"  - 2020-01-02" ++ [10%N] ++ $"b:" ++ [10%N] ++ $"  1: null" ++ [10%N] ++ $"  2: null").
Proof.
  split; [|vm_compute; reflexivity]. apply fit_ordered. cbn [In]. intros k x [H|[H|[]]]; injection H as _ <-.
  - apply fit_tuple. cbn [In]. intros v [<-|[<-|[]]]; [apply fit_text; right; right; exists 97%N; split; [left; reflexivity|reflexivity]|apply fit_scalar; [exact I|discriminate]].
  - eapply fit_numbers; [reflexivity| |]; cbn [In]; intros k' x [H|[H|[]]]; injection H as <- <-; try (eexists; reflexivity); (apply fit_scalar; [exact I|discriminate]).
Qed.

(** C62.  Nothing else is written: if a text comes out, the value has no part of another kind. *)
Theorem C62_yaml_refuses :
  forall E wrap v t, yaml_serialize E wrap v = Ok t -> yaml_made v.
Proof. exact yaml_refuses. Qed.
Print Assumptions C62_yaml_refuses.

Example C62_refuses_example :
  yaml_serialize env0 wrap62 (VList [VStr $"a"; VDict false [(VStr $"k", VBytes [1%N])]]) = py ValueError
  /\ yaml_serialize env0 wrap62 (VList [VStr (repeat 13%N 101)]) = py IndexError.
Proof. split; vm_compute; reflexivity. Qed.

(** C62.  The texts of two values told apart are different: nested lists and plain dicts with texts as
    keys, of null, booleans, integers and texts that have several lines or are short enough for one line
    and are not the digits of an integer. *)
Theorem C62_yaml_injective :
  forall E wrap v w,
    wraps wrap -> tellable 0 v -> tellable 0 w ->
    yaml_serialize E wrap v = yaml_serialize E wrap w -> reordered v w.
Proof. exact yaml_injective. Qed.
Print Assumptions C62_yaml_injective.

Definition told62 (m : str) : val := VDict false [(VStr $"a", VList [VStr m; VNone]); (VStr $"b", VStr $"null")].
Example C62_injective_example :
  tellable 0 (told62 $"x: y") /\ tellable 0 (told62 ($"1" ++ [10%N]))
  /\ yaml_serialize env0 wrap62 (told62 $"x: y") = Ok ($"a:" ++ [10%N] ++ $"  - 'x: y'" ++ [10%N] ++ $"  - null" ++ [10%N] ++ $"b: 'null'").
Proof.
  assert (H : forall m, In 10%N m \/ (length m <= 90)%nat -> (forall z, m <> Z_text z) -> tellable 0 (told62 m)).
  { intros m Hm Hz. apply tell_dict.
    - repeat (constructor; [cbn; intuition discriminate|]). constructor.
    - cbn [In]. intros k v [H|[H|[]]]; injection H as <- _; eexists; (split; [reflexivity|]); (split; [cbn; intros c [<-|[]]; split; discriminate|]);
        eexists _, _; (split; [reflexivity|split; [cbn; intuition discriminate|reflexivity]]).
    - cbn [In]. intros k v [H|[H|[]]]; injection H as _ <-.
      + apply tell_list. cbn [In]. intros v [<-|[<-|[]]]; [|constructor]. apply tell_text; [destruct Hm as [Hm|Hm]; [left; exact Hm|right; lia]|exact Hz].
      + apply tell_text; [right; cbn; lia|]. intros z Hz'. assert (Hi : In 110%N (Z_text z)) by (rewrite <- Hz'; left; reflexivity).
        apply StProofs.Z_text_chars in Hi. lia. }
  split; [|split; [|vm_compute; reflexivity]]; apply H.
  - right. cbn. lia.
  - intros z Hz. assert (Hi : In 120%N (Z_text z)) by (rewrite <- Hz; left; reflexivity). apply StProofs.Z_text_chars in Hi. lia.
  - left. right. left. reflexivity.
  - intros z Hz. assert (Hi : In 10%N (Z_text z)) by (rewrite <- Hz; right; left; reflexivity). apply StProofs.Z_text_chars in Hi. lia.
Qed.

(** C62.  The texts of different values can be the same: a text of digits is written like the
    number. *)
Theorem C62_yaml_quoting_ambiguous :
  exists v w, ~ reordered v w /\ forall E wrap, yaml_serialize E wrap v = yaml_serialize E wrap w.
Proof. exact yaml_quoting_ambiguous. Qed.
Print Assumptions C62_yaml_quoting_ambiguous.

Example C62_ambiguous_example :
  yaml_serialize env0 wrap62 (VList [VStr $"12"; VStr $"a"]) = yaml_serialize env0 wrap62 (VList [VInt 12; VStr $"a"]).
Proof. vm_compute. reflexivity. Qed.

(** C62.  A text of one line, without blanks around it and without a colon at its end, is written as a
    scalar from which YAML reads this text and no other, if it is short enough for the line. *)
Theorem C62_yaml_text_scalar :
  forall E wrap s level,
    one_line s -> (length s + 2 * level <= 100)%nat ->
    (forall r, s <> 32 :: r) -> (forall a, s <> a ++ [32]) -> (forall a, s <> a ++ [58]) ->
    exists t, yaml_value E wrap (VStr s) level = Ok (Inline t)
      /\ forall s', scalar_text t s' <-> s' = s.
Proof. exact yaml_text_scalar. Qed.
Print Assumptions C62_yaml_text_scalar.

Example C62_scalar_example :
  yaml_value env0 wrap62 (VStr $"#1: it's") 3 = Ok (Inline $"'#1: it''s'")
  /\ scalar_text $"'#1: it''s'" $"#1: it's"
  /\ yaml_value env0 wrap62 (VStr $"it's a#1:b") 3 = Ok (Inline $"it's a#1:b").
Proof. split; [vm_compute; reflexivity|]. split; [apply (text_quoted $"#1: it's")|vm_compute; reflexivity]. Qed.

(** C62.  A text that ends with a colon or has blanks around it is written in quotes if its first
    character or its inside asks for it, and otherwise as it is, which YAML does not read as a text. *)
Theorem C62_yaml_text_unsafe :
  forall E wrap s level,
    one_line s -> (length s + 2 * level <= 100)%nat ->
    (exists r, s = 32 :: r) \/ (exists a, s = a ++ [32]) \/ (exists a, s = a ++ [58]) ->
    (exists c r, s = c :: r /\ ~ In c [45; 63; 58; 44; 91; 93; 123; 125; 35; 38; 42; 33; 124; 62; 39; 34; 37; 64; 96]) ->
    (forall a b, s <> a ++ [58; 32] ++ b) -> (forall a b, s <> a ++ [32; 35] ++ b) ->
    yaml_value E wrap (VStr s) level = Ok (Inline s) /\ forall s', ~ scalar_text s s'.
Proof. exact yaml_text_unsafe. Qed.
Print Assumptions C62_yaml_text_unsafe.

Example C62_unsafe_example :
  one_line $"note:" /\ yaml_serialize env0 wrap62 (VList [VStr $"note:"]) = Ok $"- note:"
  /\ forall s', ~ scalar_text $"note:" s'.
Proof.
  assert (Hl : one_line $"note:").
  { split; [discriminate|]. cbn. intros c Hc. repeat (destruct Hc as [<-|Hc]; [repeat split; discriminate|]). destruct Hc. }
  split; [exact Hl|]. split; [vm_compute; reflexivity|].
  apply (yaml_text_unsafe env0 wrap62 $"note:" 0%nat Hl).
  - cbn. repeat constructor.
  - right. right. exists $"note". reflexivity.
  - exists 110%N, $"ote:". split; [reflexivity|]. cbn. intros H. repeat (destruct H as [H|H]; [discriminate H|]). exact H.
  - intros a b H. apply (f_equal (fun s => existsb (N.eqb 32) s)) in H. rewrite existsb_app in H. cbn in H. rewrite orb_true_r in H. discriminate H.
  - intros a b H. apply (f_equal (fun s => existsb (N.eqb 32) s)) in H. rewrite existsb_app in H. cbn in H. rewrite orb_true_r in H. discriminate H.
Qed.

(** C62.  A text that is too long for the line is written line by line, each line wrapped with the
    indent of the level; if it cannot be a plain scalar, all of it is put in quotes first. *)
Theorem C62_yaml_long_text :
  forall E wrap s level,
    (100 < length s + 2 * level)%nat -> (5 < length s)%nat -> ~ In 10 s ->
    exists written lines,
      yaml_value E wrap (VStr s) level = Ok (Block (flat_map (wrap (indents level)) lines))
      /\ cut_lines written lines
      /\ ((exists r, written = 39 :: r) -> written = 39 :: doubled s ++ [39])
      /\ ((forall r, written <> 39 :: r) -> written = s
          /\ (forall a b, s <> a ++ [58; 32] ++ b) /\ (forall a b, s <> a ++ [32; 35] ++ b)
          /\ exists c r, s = c :: r /\ ~ In c [45; 63; 58; 44; 91; 93; 123; 125; 35; 38; 42; 33; 124; 62; 39; 34; 37; 64; 96]).
Proof. exact yaml_long_text. Qed.
Print Assumptions C62_yaml_long_text.

Example C62_long_example :
  let s := repeat 97%N 60 ++ [13%N] ++ repeat 98%N 60 in
  yaml_value env0 wrap62 (VStr s) 1
  = Ok (Block [indents 1 ++ repeat 97%N 60; indents 1 ++ repeat 98%N 60])
  /\ cut_lines s [repeat 97%N 60; repeat 98%N 60].
Proof.
  split; [vm_compute; reflexivity|]. apply cut_break; [|cbn; tauto|apply cut_last; [discriminate|]];
    intros d Hd; apply repeat_spec in Hd; subst d; cbn; intros H; repeat (destruct H as [H|H]; [discriminate H|]); exact H.
Qed.
