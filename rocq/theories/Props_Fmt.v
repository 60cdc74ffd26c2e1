(** Property theorems proved in FmtProofs.v (generated by tools/mkprops.py). *)
From Verif Require Import FmtSpec Demo FmtProofs.

(** C78.  Masked values do not show: values that differ only under masked keys, at any depth, in the
    order of text keys, or in being surrogates, are formatted alike, whatever the other arguments and
    however single values are represented. *)
Theorem C78_masked_values_hidden :
  forall repr text abbreviate masks width level v w,
    same_unmasked text masks v w ->
    format_structure repr text abbreviate masks width level v
    = format_structure repr text abbreviate masks width level w.
Proof. exact masked_values_hidden. Qed.
Print Assumptions C78_masked_values_hidden.

Example C78_masked_example :
  let show := format_structure (fun v => match v with VStr s => $"'" ++ s ++ $"'" | _ => $"0" end) (fun _ => $"?")
                false [$"password"] 4 0 in
  show (VDict false [(VStr $"user", VDict false [(VStr $"password", VStr $"secret"); (VStr $"id", VInt 0)])])
  = show (VDict false [(VStr $"user", VDict false [(VStr $"id", VInt 0); (VStr $"password", VList [])])])
  /\ show (VDict false [(VStr $"password", VStr $"secret")])
     = Ok ($"{" ++ [10%N] ++ $"    'password': ***MASKED***," ++ [10%N] ++ $"}").
Proof.
  split; [|reflexivity]. apply masked_values_hidden.
  apply (su_under_key _ _ false [] (VStr $"user") _ _ []).
  apply (su_trans _ _ _ (VDict false [(VStr $"id", VInt 0); (VStr $"password", VStr $"secret")])).
  - apply (su_order _ _ _ _ _ _ [$"password"; $"id"]); [reflexivity| |apply perm_swap].
    repeat constructor; cbn; intros H; repeat (destruct H as [H|H]; [discriminate|]); exact H.
  - apply (su_masked _ _ false [(VStr $"id", VInt 0)] (VStr $"password") _ _ [] $"password"); [left; reflexivity|left; reflexivity].
Qed.

(** C78.  A dict of flat values with text keys is shown over several lines, one item per line in the
    order of the keys, with the masked values replaced. *)
Theorem C78_flat_dict_shown :
  forall repr text masks width level o names values shown sorted,
    NoDup names -> Forall2 (shown_flat repr) values shown -> length names = length values ->
    sorted_names names (map fst sorted) -> Permutation (combine names shown) sorted ->
    let line := fun ks => blanks (width * S level) ++ repr (VStr (fst ks)) ++ $": "
                  ++ (if smem (fst ks) masks then $"***MASKED***" else snd ks) ++ $"," in
    format_structure repr text false masks width level (VDict o (combine (map VStr names) values))
    = Ok (join [10%N] ([$"{"] ++ map line sorted ++ [$"}"])).
Proof. exact flat_dict_shown. Qed.
Print Assumptions C78_flat_dict_shown.

Example C78_flat_dict_example :
  format_structure (fun v => match v with VStr s => $"'" ++ s ++ $"'" | _ => $"0" end) (fun _ => $"?") false [$"key"] 2 0
    (VDict false [(VStr $"z", VInt 0); (VStr $"key", VStr $"x"); (VStr $"a", VStr $"b")])
  = Ok (join [10%N] [$"{"; $"  'a': 'b',"; $"  'key': ***MASKED***,"; $"  'z': 0,"; $"}"]).
Proof.
  eapply eq_trans; [eapply (flat_dict_shown _ _ [$"key"] 2 0 false [$"z"; $"key"; $"a"] [VInt 0; VStr $"x"; VStr $"b"]
    [$"0"; $"'x'"; $"'b'"] [($"a", $"'b'"); ($"key", $"'x'"); ($"z", $"0")])|reflexivity].
  - repeat constructor; cbn; intros H; repeat (destruct H as [H|H]; [discriminate|]); exact H.
  - repeat constructor; discriminate.
  - reflexivity.
  - split.
    + cbn [map fst]. apply Permutation_rev.
    + repeat constructor.
  - cbn [combine]. apply Permutation_rev.
Qed.

(** C78.  A list of flat values is shown on one line when that is at most 60 characters long, else one
    value per line. *)
Theorem C78_flat_list_shown :
  forall repr text masks width level values shown,
    Forall2 (shown_flat repr) values shown -> Forall compact shown ->
    let line := $"[" ++ join $", " shown ++ $"]" in
    format_structure repr text false masks width level (VList values)
    = Ok (if (zlen line <=? 60)%Z then line
          else join [10%N] ([$"["] ++ map (fun s => blanks (width * S level) ++ s ++ $",") shown ++ [$"]"])).
Proof. exact flat_list_shown. Qed.
Print Assumptions C78_flat_list_shown.

Example C78_flat_list_example :
  let show := format_structure (fun v => match v with VStr s => $"'" ++ s ++ $"'" | _ => $"0" end) (fun _ => $"?") false [] 2 0 in
  show (VList [VStr $"a,"; VInt 0]) = Ok $"['a,', 0]"
  /\ show (VList [VStr (repeat 97%N 60)])
     = Ok (join [10%N] [$"["; $"  '" ++ repeat 97%N 60 ++ $"',"; $"]"]).
Proof.
  assert (Hc : forall s, compact ($"'" ++ s ++ $"'")).
  { intros s. split; [discriminate|]. split; [intros c r [= <- _]; reflexivity|].
    intros c r H. rewrite app_assoc in H. apply app_inj_tail in H. destruct H as [_ <-]. split; [reflexivity|discriminate]. }
  assert (Hf : forall v s, (match v with VStr s => $"'" ++ s ++ $"'" | _ => $"0" end) = s ->
            match v with VStr _ | VInt _ => True | _ => False end ->
            shown_flat (fun v => match v with VStr s => $"'" ++ s ++ $"'" | _ => $"0" end) v s).
  { intros v s <- Hv. destruct v; try contradiction; (split; [reflexivity|split; [split; discriminate|reflexivity]]). }
  split.
  - eapply eq_trans; [apply (flat_list_shown _ _ [] 2 0 _ [$"'" ++ $"a," ++ $"'"; $"0"])|reflexivity].
    + repeat (constructor; [apply Hf; [reflexivity|exact I]|]). constructor.
    + constructor; [apply Hc|]. constructor; [|constructor]. split; [discriminate|]. split; [intros c r [= <- _]; reflexivity|].
      intros c r H. apply (app_inj_tail [] r) in H. destruct H as [_ <-]. split; [reflexivity|discriminate].
  - eapply eq_trans; [apply (flat_list_shown _ _ [] 2 0 _ [$"'" ++ repeat 97%N 60 ++ $"'"])|reflexivity].
    + repeat (constructor; [apply Hf; [reflexivity|exact I]|]). constructor.
    + constructor; [apply Hc|constructor].
Qed.

(** C78.  Abbreviation does not work: with it every text of more than four characters raises TypeError,
    and no other text is changed. *)
Theorem C78_abbreviating_raises :
  forall repr text masks width level s,
    format_structure repr text true masks width level (VStr s)
    = if (zlen s <=? 4)%Z then Ok (repr (VStr s)) else Raise (XPy TypeError).
Proof. exact abbreviating_raises. Qed.
Print Assumptions C78_abbreviating_raises.

Example C78_abbreviate_example :
  format_structure (fun v => match v with VStr s => $"'" ++ s ++ $"'" | _ => $"0" end) (fun _ => $"?") true [] 4 0
    (VStr $"hello") = Raise (XPy TypeError).
Proof. rewrite abbreviating_raises. reflexivity. Qed.

(** C78.  Values of any depth are shown as [shows] says: line by line, masked values replaced, what fits
    on one line of 60 characters there and the rest one below the other. *)
Theorem C78_structure_shown :
  forall repr text masks width level v lines,
    shows repr masks width level v lines ->
    format_structure repr text false masks width level v = Ok (join [10%N] lines).
Proof. exact structure_shown. Qed.
Print Assumptions C78_structure_shown.

Example C78_shown_example :
  let repr := fun v => match v with VStr s => $"'" ++ s ++ $"'" | _ => $"0" end in
  let v := VDict false [(VStr $"b", VList [VDict false [(VStr $"key", VNone)]; VInt 0]); (VStr $"c", VTuple [VInt 0; VList []])] in
  presentable repr v
  /\ format_structure repr (fun _ => $"?") false [$"key"] 2 0 v
     = Ok (join [10%N] [$"{"; $"  'c': (0, []),"; $"  'b': ["; $"    {"; $"      'key': ***MASKED***,"; $"    },"; $"    0,"; $"  ],"; $"}"]).
Proof.
  assert (Hc : compact $"0").
  { split; [discriminate|]. split; [intros c r [= <- _]; reflexivity|].
    intros c r H. apply (app_inj_tail [] r) in H. destruct H as [_ <-]. split; [reflexivity|discriminate]. }
  intros repr v. split; [|vm_compute; reflexivity].
  split; [exists [$"b"; $"c"]; split; [reflexivity|repeat constructor; cbn; intuition discriminate]|].
  split; [split; [split; [exists [$"key"]; split; [reflexivity|repeat constructor; intros []]|split; [exact Hc|exact I]]|split; [exact Hc|exact I]]|].
  split; [split; [exact Hc|split; [exact I|exact I]]|exact I].
Qed.

(** C78.  And every value of texts, numbers and containers is shown in such a way. *)
Theorem C78_everything_shown :
  forall repr masks width v level, presentable repr v -> exists lines, shows repr masks width level v lines.
Proof. exact everything_shown. Qed.
Print Assumptions C78_everything_shown.

Example C78_everything_example :
  presentable (fun v => match v with VStr s => $"'" ++ s ++ $"'" | _ => $"[]" end) (VList [VList [VNone]]).
Proof.
  split; [split; [|exact I]|exact I]. split; [discriminate|]. split; [intros c r [= <- _]; reflexivity|].
  intros c r H. apply (app_inj_tail [91%N] r) in H. destruct H as [_ <-]. split; [reflexivity|discriminate].
Qed.
