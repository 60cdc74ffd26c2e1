(** * [format_structure]: masked values are not shown; exact rendering of flat values (C78). *)
(* @imports FmtSpec Demo *)
From Verif Require Import FmtSpec BuildProofs PyBaseFacts ProcessFacts Demo Induct.

Lemma format_dict_eq repr text ab masks width level o l :
  format_value repr text ab masks width level (VDict o l)
  = format_dict repr text masks width level
      (map (fun kx => (fst kx, format_value repr text ab masks width (S level) (snd kx))) l).
Proof.
  cbn [format_value]. f_equal. induction l as [|[k x] l IH]; [reflexivity|]. cbn [map fst snd]. f_equal. exact IH.
Qed.
Lemma format_list_eq repr text ab masks width level l :
  format_value repr text ab masks width level (VList l)
  = format_list width level $"[" $"]" (map (format_value repr text ab masks width (S level)) l).
Proof.
  reflexivity.
Qed.
Lemma format_tuple_eq repr text ab masks width level l :
  format_value repr text ab masks width level (VTuple l)
  = format_list width level $"(" $")" (map (format_value repr text ab masks width (S level)) l).
Proof.
  reflexivity.
Qed.

(** Masking first changes nothing. *)
Definition covered text masks (kd : val * res shown) : val * res shown :=
  (fst kd, if smem (key_text text (fst kd)) masks then Ok (One $"***MASKED***") else snd kd).
Lemma rounds_covered repr text masks width level items acc :
  dict_rounds repr text masks width level (map (covered text masks) items) acc
  = dict_rounds repr text masks width level items acc.
Proof.
  revert acc. induction items as [|[k d] items IH]; intros acc; [reflexivity|]. cbn [map covered dict_rounds fst snd].
  destruct (smem (key_text text k) masks); cbn [bind]; [apply IH|].
  destruct d as [d|]; cbn [bind]; [apply IH|reflexivity].
Qed.

Lemma insert_map {A B} (h : val * A -> val * B) x l :
  (forall y, fst (h y) = fst y) ->
  insert_item (h x) (map h l) = do r <- insert_item x l; Ok (map h r).
Proof.
  intros Hh. induction l as [|y l IH]; [reflexivity|]. cbn [map insert_item]. rewrite !Hh.
  destruct (key_lt (fst x) (fst y)) as [[]|]; cbn [bind]; [reflexivity| |reflexivity].
  rewrite IH. destruct (insert_item x l); reflexivity.
Qed.
Lemma sort_map {A B} (h : val * A -> val * B) l done :
  (forall y, fst (h y) = fst y) ->
  sort_items (map h done) (map h l) = do r <- sort_items done l; Ok (map h r).
Proof.
  intros Hh. revert done. induction l as [|x l IH]; intros done; [reflexivity|]. cbn [map sort_items].
  rewrite (insert_map h x done Hh). destruct (insert_item x done); cbn [bind]; [apply IH|reflexivity].
Qed.
Lemma dict_covered repr text masks width level items :
  format_dict repr text masks width level (map (covered text masks) items)
  = format_dict repr text masks width level items.
Proof.
  unfold format_dict. pose proof (sort_map (covered text masks) items [] (fun _ => eq_refl)) as Hs. cbn [map] in Hs.
  rewrite Hs.
  destruct (sort_items [] items) as [s|]; cbn [bind map]; [|reflexivity]. rewrite rounds_covered. reflexivity.
Qed.

(** ** Sorting by text keys *)

Definition key_le {A} (x y : val * A) : Prop :=
  exists a b, fst x = VStr a /\ fst y = VStr b /\ str_le a b.

Lemma str_le_antisym a b : str_le a b -> str_le b a -> a = b.
Proof.
  intros H. induction H as [a|x y a b Hxy|x a b H IH]; intros H2.
  - inversion H2; reflexivity.
  - inversion H2; subst; lia.
  - inversion H2; subst; [lia|]. f_equal. apply IH. assumption.
Qed.

Lemma insert_texts {A} (x : val * A) l a :
  fst x = VStr a -> Forall (fun y => exists b, fst y = VStr b) l -> StronglySorted key_le l ->
  exists r, insert_item x l = Ok r /\ Permutation (x :: l) r /\ StronglySorted key_le r.
Proof.
  intros Hx. induction l as [|y l IH]; intros Hl Hs.
  { exists [x]. repeat constructor. }
  inversion Hl as [|? ? [b Hb] Hl']; subst. inversion Hs as [|? ? Hs' Hf]; subst.
  cbn [insert_item]. rewrite Hx, Hb. cbn [key_lt bind]. destruct (str_leb b a) eqn:Hle; cbn [negb].
  - destruct (IH Hl' Hs') as [r [-> [Hp Hr]]]. cbn [bind]. exists (y :: r). split; [reflexivity|]. split.
    + rewrite perm_swap. constructor. exact Hp.
    + constructor; [exact Hr|]. rewrite Forall_forall in *. intros z Hz.
      apply (Permutation_in _ (Permutation_sym Hp)) in Hz. destruct Hz as [<-|Hz]; [|apply Hf, Hz].
      exists b, a. split; [exact Hb|]. split; [exact Hx|]. apply str_leb_le, Hle.
  - exists (x :: y :: l). split; [reflexivity|]. split; [reflexivity|]. apply str_leb_total in Hle.
    constructor; [exact Hs|]. constructor; [exists a, b; auto|]. rewrite Forall_forall in *. intros z Hz.
    destruct (Hf z Hz) as [b' [c [H1 [H2 H3]]]]. rewrite Hb in H1. injection H1 as <-.
    exists a, c. split; [exact Hx|]. split; [exact H2|]. exact (str_le_trans _ _ _ Hle H3).
Qed.
Lemma sort_texts {A} (l done : list (val * A)) :
  Forall (fun y => exists b, fst y = VStr b) l -> Forall (fun y => exists b, fst y = VStr b) done ->
  StronglySorted key_le done ->
  exists r, sort_items done l = Ok r /\ Permutation (done ++ l) r /\ StronglySorted key_le r.
Proof.
  revert done. induction l as [|x l IH]; intros done Hl Hd Hs.
  { exists done. split; [reflexivity|]. split; [rewrite app_nil_r; reflexivity|exact Hs]. }
  inversion Hl as [|? ? [a Ha] Hl']; subst. destruct (insert_texts x done a Ha Hd Hs) as [d [Hi [Hp Hsd]]].
  cbn [sort_items]. rewrite Hi. cbn [bind].
  destruct (IH d Hl') as [r [Hr [Hpr Hsr]]]; [|exact Hsd|].
  - apply (Permutation_Forall Hp). constructor; [exists a; exact Ha|exact Hd].
  - exists r. split; [exact Hr|]. split; [|exact Hsr]. rewrite <- Hpr, <- Hp.
    symmetry. rewrite (Permutation_middle done l x). reflexivity.
Qed.

Lemma sorted_unique {A} (l l' : list (val * A)) :
  NoDup (map fst l) -> Permutation l l' -> StronglySorted key_le l -> StronglySorted key_le l' -> l = l'.
Proof.
  revert l'. induction l as [|x l IH]; intros l' Hn Hp Hs Hs'.
  { apply Permutation_nil in Hp. auto. }
  destruct l' as [|y l']; [apply Permutation_sym, Permutation_nil in Hp; discriminate|].
  inversion Hs as [|? ? Hs1 Hf]; subst. inversion Hs' as [|? ? Hs1' Hf']; subst. inversion Hn as [|? ? Hnx Hn']; subst.
  assert (Hxy : x = y).
  { assert (Hx : In x (y :: l')) by (apply (Permutation_in _ Hp); left; reflexivity).
    assert (Hy : In y (x :: l)) by (apply (Permutation_in _ (Permutation_sym Hp)); left; reflexivity).
    destruct Hy as [Hy|Hy]; [exact Hy|]. destruct Hx as [Hx|Hx]; [auto|]. exfalso. apply Hnx.
    rewrite Forall_forall in Hf, Hf'. destruct (Hf _ Hy) as [a [b [Ha [Hb Hab]]]].
    destruct (Hf' _ Hx) as [b' [a' [Hb' [Ha' Hba]]]]. rewrite Ha in Ha'. rewrite Hb in Hb'.
    injection Ha' as <-. injection Hb' as <-. rewrite (str_le_antisym _ _ Hab Hba) in Ha. rewrite Ha, <- Hb.
    apply in_map, Hy. }
  subst y. f_equal. apply IH; [exact Hn'| |exact Hs1|exact Hs1']. apply Permutation_cons_inv in Hp. exact Hp.
Qed.

Lemma sort_permuted {A} (l l' : list (val * A)) names :
  map fst l = map VStr names -> NoDup names -> Permutation l l' -> sort_items [] l = sort_items [] l'.
Proof.
  intros Hk Hn Hp.
  assert (Hl : Forall (fun y => exists b, fst y = VStr b) l).
  { apply Forall_forall. intros y Hy. apply (in_map fst) in Hy. rewrite Hk in Hy. apply in_map_iff in Hy.
    destruct Hy as [b [Hb _]]. exists b. auto. }
  assert (Hl' := Permutation_Forall Hp Hl).
  destruct (sort_texts l [] Hl (Forall_nil _) (SSorted_nil _)) as [r [-> [Hr Hs]]].
  destruct (sort_texts l' [] Hl' (Forall_nil _) (SSorted_nil _)) as [r' [-> [Hr' Hs']]]. f_equal.
  cbn [app] in Hr, Hr'. apply sorted_unique; [| |exact Hs|exact Hs'].
  - apply (Permutation_NoDup (l := map VStr names)); [rewrite <- Hk; apply Permutation_map, Hr|].
    apply FinFun.Injective_map_NoDup; [intros a b [= ->]; reflexivity|exact Hn].
  - rewrite <- Hr, Hp. exact Hr'.
Qed.

(** @prop C78 Masked values do not show: values that differ only under masked keys, at any depth, in the
    order of text keys, or in being surrogates, are formatted alike, whatever the other arguments and
    however single values are represented. *)
Lemma masked_values_hidden :
  forall repr text abbreviate masks width level v w,
    same_unmasked text masks v w ->
    format_structure repr text abbreviate masks width level v
    = format_structure repr text abbreviate masks width level w.
Proof.
  intros repr text ab masks width level v w H. unfold format_structure.
  assert (Hv : format_value repr text ab masks width level v = format_value repr text ab masks width level w);
    [|rewrite Hv; reflexivity].
  revert level.
  induction H as [v|u v w H1 IH1 H2 IH2|o a k x y b s Hk Hs|o a k x y b H IH|a x y b H IH|a x y b H IH
                 |o o' l l' names Hk Hn Hp|i s n o l]; intros level.
  - reflexivity.
  - rewrite IH1. apply IH2.
  - rewrite !format_dict_eq. rewrite <- dict_covered. symmetry. rewrite <- dict_covered. f_equal.
    rewrite !map_app. cbn [map covered fst snd]. do 2 f_equal. unfold covered. cbn [fst snd].
    replace (smem (key_text text k) masks) with true; [reflexivity|]. symmetry. apply smem_In.
    destruct Hk as [-> |[Hk ->]]; [exact Hs|]. destruct k; try exact Hs. exfalso. apply (Hk s). reflexivity.
  - rewrite !format_dict_eq. f_equal. rewrite !map_app. cbn [map fst snd]. rewrite IH. reflexivity.
  - rewrite !format_list_eq. f_equal. rewrite !map_app. cbn [map]. rewrite IH. reflexivity.
  - rewrite !format_tuple_eq. f_equal. rewrite !map_app. cbn [map]. rewrite IH. reflexivity.
  - rewrite !format_dict_eq. unfold format_dict.
    match goal with |- context [sort_items [] (map ?h l)] =>
      assert (Hsort : sort_items [] (map h l) = sort_items [] (map h l')) end; [|rewrite Hsort; reflexivity].
    apply (sort_permuted _ _ names); [|exact Hn|apply Permutation_map, Hp].
    rewrite map_map. cbn [fst]. exact Hk.
  - reflexivity.
Qed.
(** @example
Example C78_masked_example :
  let show := format_structure (fun v => match v with VStr s => $"'" ++ s ++ $"'" | _ => $"0" end) (fun _ => $"?")
                false [$"password"] 4 0 in
  show (VDict false [(VStr $"user", VDict false [(VStr $"password", VStr $"secret"); (VStr $"id", VInt 0)])])
  = show (VDict false [(VStr $"user", VDict false [(VStr $"id", VInt 0); (VStr $"password", VList [])])])
  /\ show (VDict false [(VStr $"password", VStr $"secret")])
     = Ok ($"{" ++ [10%N] ++ $"    'password': ***MASKED***," ++ [10%N] ++ $"}").
Proof.
  split; [|reflexivity]. apply masked_values_hidden.
  apply (su_under_key _ _ false [] (VStr $"user") _ _ []).
  apply (su_trans _ _ _ (VDict false [(VStr $"id", VInt 0); (VStr $"password", VStr $"secret")])).
  - apply (su_order _ _ _ _ _ _ [$"password"; $"id"]); [reflexivity| |apply perm_swap].
    repeat constructor; cbn; intros H; repeat (destruct H as [H|H]; [discriminate|]); exact H.
  - apply (su_masked _ _ false [(VStr $"id", VInt 0)] (VStr $"password") _ _ [] $"password"); [left; reflexivity|left; reflexivity].
Qed.
@end *)

(** ** Flat values *)

Lemma flat_value repr text masks width level v s :
  shown_flat repr v s -> format_value repr text false masks width level v = Ok (One s).
Proof.
  intros [Hd [Hl ->]]. destruct v; try reflexivity; try discriminate.
  - destruct (Hl l) as [H _]. congruence.
  - destruct (Hl l) as [_ H]. congruence.
Qed.

(** @prop C78 A dict of flat values with text keys is shown over several lines, one item per line in the
    order of the keys, with the masked values replaced. *)
Lemma flat_dict_shown :
  forall repr text masks width level o names values shown sorted,
    NoDup names -> Forall2 (shown_flat repr) values shown -> length names = length values ->
    sorted_names names (map fst sorted) -> Permutation (combine names shown) sorted ->
    let line := fun ks => blanks (width * S level) ++ repr (VStr (fst ks)) ++ $": "
                  ++ (if smem (fst ks) masks then $"***MASKED***" else snd ks) ++ $"," in
    format_structure repr text false masks width level (VDict o (combine (map VStr names) values))
    = Ok (join [10%N] ([$"{"] ++ map line sorted ++ [$"}"])).
Proof.
  intros repr text masks width level o names values shown sorted Hn Hv Hlen [_ Hs] Hp line.
  unfold format_structure. rewrite format_dict_eq. unfold format_dict.
  match goal with |- context [map ?h (combine _ _)] =>
    assert (Hm : map h (combine (map VStr names) values) = map (fun ks => (VStr (fst ks), Ok (One (snd ks)))) (combine names shown)) end.
  { clear Hp Hs Hn. revert values shown Hv Hlen. induction names as [|a names IH]; intros [|v values] shown Hv Hlen; try discriminate.
    - reflexivity.
    - inversion Hv as [|? s ? shown' Hvs Hv']; subst. cbn [map combine fst snd].
      rewrite (flat_value _ text masks width (S level) _ _ Hvs). f_equal. apply IH; [exact Hv'|]. injection Hlen as ->. reflexivity. }
  rewrite Hm.
  assert (Hlen2 : length names = length shown) by (rewrite Hlen; clear -Hv; induction Hv; cbn [length]; congruence).
  assert (Hnames : map fst (combine names shown) = names).
  { clear -Hlen2. revert shown Hlen2. induction names as [|a names IH]; intros [|s shown] H; try discriminate; [reflexivity|].
    cbn [combine map fst]. f_equal. apply IH. injection H as ->. reflexivity. }
  set (h := fun ks : str * str => (VStr (fst ks), Ok (One (snd ks)) : res Fmt.shown)).
  assert (Hsort : sort_items [] (map h (combine names shown)) = Ok (map h sorted)).
  { destruct (sort_texts (map h (combine names shown)) []) as [r [Hr [Hpr Hsr]]].
    - apply Forall_forall. intros y Hy. apply in_map_iff in Hy. destruct Hy as [ks [<- _]]. exists (fst ks). reflexivity.
    - constructor.
    - constructor.
    - rewrite Hr. f_equal. cbn [app] in Hpr. apply sorted_unique; [| |exact Hsr|].
      + apply (Permutation_NoDup (Permutation_map fst Hpr)). rewrite map_map. unfold h. cbn [fst].
        rewrite <- (map_map fst VStr), Hnames. apply FinFun.Injective_map_NoDup; [intros a b [= ->]; reflexivity|exact Hn].
      + rewrite <- Hpr. apply Permutation_map, Hp.
      + clear -Hs. induction sorted as [|x sorted IH]; cbn [map] in *; [constructor|].
        inversion Hs as [|? ? Hs' Hf]; subst. constructor; [apply IH, Hs'|]. rewrite Forall_forall in *. intros y Hy.
        apply in_map_iff in Hy. destruct Hy as [z [<- Hz]]. exists (fst x), (fst z). split; [reflexivity|]. split; [reflexivity|].
        apply Hf, in_map, Hz. }
  rewrite Hsort. cbn [bind].
  assert (Hr : forall acc, dict_rounds repr text masks width level (map h sorted) acc
               = Ok (fst acc ++ map line sorted, snd acc)).
  { clear. induction sorted as [|[k s] sorted IH]; intros [a1 a2]; cbn [map dict_rounds h fst snd].
    - rewrite app_nil_r. reflexivity.
    - cbn [key_text].
      assert (Hd : (if smem k masks then Ok (One $"***MASKED***") else Ok (One s) : res Fmt.shown)
                   = Ok (One (if smem k masks then $"***MASKED***" else s))) by (destruct (smem k masks); reflexivity).
      rewrite Hd. cbn [bind]. rewrite IH. unfold dict_round, margin. cbn [fst snd key_text]. rewrite <- !app_assoc. reflexivity. }
  rewrite Hr. cbn [bind fst snd]. rewrite app_nil_r. reflexivity.
Qed.
(** @example
Example C78_flat_dict_example :
  format_structure (fun v => match v with VStr s => $"'" ++ s ++ $"'" | _ => $"0" end) (fun _ => $"?") false [$"key"] 2 0
    (VDict false [(VStr $"z", VInt 0); (VStr $"key", VStr $"x"); (VStr $"a", VStr $"b")])
  = Ok (join [10%N] [$"{"; $"  'a': 'b',"; $"  'key': ***MASKED***,"; $"  'z': 0,"; $"}"]).
Proof.
  eapply eq_trans; [eapply (flat_dict_shown _ _ [$"key"] 2 0 false [$"z"; $"key"; $"a"] [VInt 0; VStr $"x"; VStr $"b"]
    [$"0"; $"'x'"; $"'b'"] [($"a", $"'b'"); ($"key", $"'x'"); ($"z", $"0")])|reflexivity].
  - repeat constructor; cbn; intros H; repeat (destruct H as [H|H]; [discriminate|]); exact H.
  - repeat constructor; discriminate.
  - reflexivity.
  - split.
    + cbn [map fst]. apply Permutation_rev.
    + repeat constructor.
  - cbn [combine]. apply Permutation_rev.
Qed.
@end *)

Lemma rstrip_end p s c : p c = false -> rstrip p (s ++ [c]) = s ++ [c].
Proof.
  intros Hc. induction s as [|d s IH]; cbn [app rstrip]; [rewrite Hc; reflexivity|].
  rewrite IH. destruct s; reflexivity.
Qed.
Lemma rstrip_drop p s c : p c = true -> rstrip p (s ++ [c]) = rstrip p s.
Proof.
  intros Hc. induction s as [|d s IH]; cbn [app rstrip]; [rewrite Hc; reflexivity|]. rewrite IH. reflexivity.
Qed.

Lemma trimmed_line width level s : compact s -> trimmed (margin width level ++ s ++ $",") = s.
Proof.
  intros [Hne [Hb He]]. unfold trimmed, strip.
  assert (H1 : lstrip is_space (margin width level ++ s ++ $",") = s ++ $",").
  { unfold margin, blanks. induction (width * level)%nat as [|n IH]; [|exact IH]. cbn [repeat app].
    destruct s as [|c r]; [congruence|]. cbn [app lstrip]. rewrite (Hb c r eq_refl). reflexivity. }
  rewrite H1. change ($",") with [44%N]. rewrite rstrip_end by reflexivity. rewrite rstrip_drop by reflexivity.
  destruct (exists_last Hne) as [r [c ->]]. apply rstrip_end. destruct (He c r eq_refl) as [_ Hc].
  apply N.eqb_neq. auto.
Qed.

(** @prop C78 A list of flat values is shown on one line when that is at most 60 characters long, else one
    value per line. *)
Lemma flat_list_shown :
  forall repr text masks width level values shown,
    Forall2 (shown_flat repr) values shown -> Forall compact shown ->
    let line := $"[" ++ join $", " shown ++ $"]" in
    format_structure repr text false masks width level (VList values)
    = Ok (if (zlen line <=? 60)%Z then line
          else join [10%N] ([$"["] ++ map (fun s => blanks (width * S level) ++ s ++ $",") shown ++ [$"]"])).
Proof.
  intros repr text masks width level values shown Hv Hc line. unfold format_structure. rewrite format_list_eq.
  unfold format_list.
  assert (Hr : list_rounds width level (map (format_value repr text false masks width (S level)) values)
               = Ok (map (fun s => blanks (width * S level) ++ s ++ $",") shown, true)).
  { clear Hc line. induction Hv as [|v s values shown Hvs Hv IH]; [reflexivity|]. cbn [map list_rounds].
    rewrite (flat_value _ text masks width (S level) _ _ Hvs). cbn [bind]. rewrite IH. reflexivity. }
  rewrite Hr. cbn [bind fst snd andb].
  assert (Ht : map trimmed (map (fun s => blanks (width * S level) ++ s ++ $",") shown) = shown).
  { clear -Hc. induction Hc as [|s shown Hs Hc IH]; [reflexivity|]. cbn [map]. rewrite IH. f_equal. apply trimmed_line, Hs. }
  rewrite Ht. fold line. destruct (zlen line <=? 60)%Z; reflexivity.
Qed.
(** @example
Example C78_flat_list_example :
  let show := format_structure (fun v => match v with VStr s => $"'" ++ s ++ $"'" | _ => $"0" end) (fun _ => $"?") false [] 2 0 in
  show (VList [VStr $"a,"; VInt 0]) = Ok $"['a,', 0]"
  /\ show (VList [VStr (repeat 97%N 60)])
     = Ok (join [10%N] [$"["; $"  '" ++ repeat 97%N 60 ++ $"',"; $"]"]).
Proof.
  assert (Hc : forall s, compact ($"'" ++ s ++ $"'")).
  { intros s. split; [discriminate|]. split; [intros c r [= <- _]; reflexivity|].
    intros c r H. rewrite app_assoc in H. apply app_inj_tail in H. destruct H as [_ <-]. split; [reflexivity|discriminate]. }
  assert (Hf : forall v s, (match v with VStr s => $"'" ++ s ++ $"'" | _ => $"0" end) = s ->
            match v with VStr _ | VInt _ => True | _ => False end ->
            shown_flat (fun v => match v with VStr s => $"'" ++ s ++ $"'" | _ => $"0" end) v s).
  { intros v s <- Hv. destruct v; try contradiction; (split; [reflexivity|split; [split; discriminate|reflexivity]]). }
  split.
  - eapply eq_trans; [apply (flat_list_shown _ _ [] 2 0 _ [$"'" ++ $"a," ++ $"'"; $"0"])|reflexivity].
    + repeat (constructor; [apply Hf; [reflexivity|exact I]|]). constructor.
    + constructor; [apply Hc|]. constructor; [|constructor]. split; [discriminate|]. split; [intros c r [= <- _]; reflexivity|].
      intros c r H. apply (app_inj_tail [] r) in H. destruct H as [_ <-]. split; [reflexivity|discriminate].
  - eapply eq_trans; [apply (flat_list_shown _ _ [] 2 0 _ [$"'" ++ repeat 97%N 60 ++ $"'"])|reflexivity].
    + repeat (constructor; [apply Hf; [reflexivity|exact I]|]). constructor.
    + constructor; [apply Hc|constructor].
Qed.
@end *)

(** @prop C78 Abbreviation does not work: with it every text of more than four characters raises TypeError,
    and no other text is changed. *)
Lemma abbreviating_raises :
  forall repr text masks width level s,
    format_structure repr text true masks width level (VStr s)
    = if (zlen s <=? 4)%Z then Ok (repr (VStr s)) else Raise (XPy TypeError).
Proof.
  intros repr text masks width level s. unfold format_structure. cbn [format_value]. unfold format_string, abbreviate_string.
  change (Z.max 0 4) with 4%Z. destruct (zlen s <=? 4)%Z; reflexivity.
Qed.
(** @example
Example C78_abbreviate_example :
  format_structure (fun v => match v with VStr s => $"'" ++ s ++ $"'" | _ => $"0" end) (fun _ => $"?") true [] 4 0
    (VStr $"hello") = Raise (XPy TypeError).
Proof. rewrite abbreviating_raises. reflexivity. Qed.
@end *)

(** ** Values of any depth *)

Definition of_lines (b : list str) : shown :=
  match b with
  | [] => One []
  | [s] => One s
  | first :: rest => Lines first (removelast rest) (last rest [])
  end.
Lemma of_lines_many opening mid closing : of_lines ([opening] ++ mid ++ [closing]) = Lines opening mid closing.
Proof.
  cbn [app of_lines]. destruct (mid ++ [closing]) as [|x r] eqn:E; [destruct mid; discriminate E|].
  rewrite <- E, removelast_last, last_last. reflexivity.
Qed.

Lemma list_rounds_blocks (fv : val -> res shown) width level values blocks :
  Forall2 (fun x b => fv x = Ok (of_lines b) /\ b <> []) values blocks ->
  list_rounds width level (map fv values)
  = Ok (concat (map (hung (blanks (width * S level)) []) blocks), forallb single blocks).
Proof.
  intros H. induction H as [|x b values blocks [Hx Hb] H IH]; [reflexivity|]. cbn [map list_rounds]. rewrite Hx. cbn [bind].
  rewrite IH. cbn [bind fst snd concat forallb]. destruct b as [|s [|t r]]; [congruence| |].
  - cbn [of_lines hung single andb app]. reflexivity.
  - cbn [of_lines single andb]. unfold hung, margin. do 2 f_equal. cbn [app]. rewrite <- app_assoc. reflexivity.
Qed.
Lemma singles_texts (blocks : list (list str)) :
  forallb single blocks = true -> exists texts, blocks = map (fun s => [s]) texts.
Proof.
  induction blocks as [|b blocks IH]; intros H; [exists []; reflexivity|]. cbn [forallb] in H. apply andb_prop in H.
  destruct H as [Hb H]. destruct (IH H) as [texts ->]. destruct b as [|s [|? ?]]; try discriminate Hb. exists (s :: texts). reflexivity.
Qed.
Lemma trimmed_texts width level texts :
  Forall compact texts ->
  map trimmed (concat (map (hung (blanks (width * S level)) []) (map (fun s => [s]) texts))) = texts.
Proof.
  induction texts as [|s texts IH]; intros H; [reflexivity|]. inversion H as [|? ? Hs H']; subst.
  cbn [map concat hung app]. rewrite IH by exact H'. f_equal. apply (trimmed_line width (S level)), Hs.
Qed.
Lemma singles_single (texts : list str) : forallb single (map (fun s => [s]) texts) = true.
Proof. induction texts; [reflexivity|assumption]. Qed.

Lemma dict_rounds_blocks repr text masks width level (sorted : list (str * list str)) items :
  Forall2 (fun e (kd : val * res shown) => fst kd = VStr (fst e) /\ snd e <> []
             /\ (if smem (fst e) masks then Ok (One $"***MASKED***") else snd kd) = Ok (of_lines (snd e))) sorted items ->
  forall acc, dict_rounds repr text masks width level items acc
  = let item := fun e => hung (blanks (width * S level)) (repr (VStr (fst e)) ++ $": ") (snd e) in
    Ok (fst acc ++ concat (map item (filter (fun e => single (snd e)) sorted)),
        snd acc ++ concat (map item (filter (fun e => negb (single (snd e))) sorted))).
Proof.
  intros H. induction H as [|[k b] [k' d] sorted items [Hk [Hb Hd]] H IH]; intros acc; cbv zeta.
  - cbn. rewrite !app_nil_r. destruct acc; reflexivity.
  - cbn [fst snd] in Hk, Hb, Hd. subst k'. cbn [dict_rounds key_text]. rewrite Hd. cbn [bind]. rewrite IH. cbv zeta.
    cbn [filter snd]. unfold dict_round, margin. cbn [key_text]. destruct b as [|s [|t r]]; [congruence| |];
      cbn [of_lines single negb map concat fst snd].
    + cbn [hung]. rewrite <- !app_assoc. reflexivity.
    + do 2 f_equal. unfold hung. cbn [app]. rewrite <- !app_assoc. cbn [app]. rewrite <- !app_assoc. reflexivity.
Qed.

Lemma forall2_in_l {A B} (P : A -> B -> Prop) l m x : Forall2 P l m -> In x l -> exists y, In y m /\ P x y.
Proof.
  intros H. induction H as [|a b l m Hab H IH]; intros Hx; [destruct Hx|]. destruct Hx as [<-|Hx]; [exists b; split; [left; reflexivity|exact Hab]|].
  destruct (IH Hx) as [y [Hy HP]]. exists y. split; [right; exact Hy|exact HP].
Qed.

Lemma compact_wrapped a b s : is_space a = false -> is_space b = false -> b <> 44%N -> compact ([a] ++ s ++ [b]).
Proof.
  intros Ha Hb Hc. split; [discriminate|]. split; [intros c r [= <- _]; exact Ha|].
  intros c r H. rewrite app_assoc in H. apply app_inj_tail in H. destruct H as [_ <-]. split; assumption.
Qed.

Lemma str_dict_sorted repr text masks width level fv (l : list (val * val)) entries sorted :
  Forall2 (fun kx (e : str * list str) => fst kx = VStr (fst e) /\ snd e <> []
             /\ (if smem (fst e) masks then Ok (One $"***MASKED***") else fv (snd kx)) = Ok (of_lines (snd e))) l entries ->
  NoDup (map fst entries) -> Permutation entries sorted -> StronglySorted str_le (map fst sorted) ->
  let item := fun e => hung (blanks (width * S level)) (repr (VStr (fst e)) ++ $": ") (snd e) in
  format_dict repr text masks width level (map (fun kx => (fst kx, fv (snd kx))) l)
  = Ok (Lines $"{" (concat (map item (filter (fun e => single (snd e)) sorted))
                   ++ concat (map item (filter (fun e => negb (single (snd e))) sorted))) $"}").
Proof.
  intros H Hn Hp Hs item.
  set (h := fun e : str * list str => (VStr (fst e), Ok (of_lines (snd e)) : res shown)).
  rewrite <- dict_covered. rewrite map_map.
  assert (Hm : map (fun x => covered text masks (fst x, fv (snd x))) l = map h entries).
  { clear -H. induction H as [|[k x] [n b] l entries [Hk [Hb Hd]] H IH]; [reflexivity|]. cbn [map]. rewrite IH. f_equal.
    unfold covered, h. cbn [fst snd] in *. subst k. cbn [key_text]. rewrite Hd. reflexivity. }
  rewrite Hm. unfold format_dict.
  assert (Hsort : sort_items [] (map h entries) = Ok (map h sorted)).
  { destruct (sort_texts (map h entries) []) as [r [Hr [Hpr Hsr]]].
    - apply Forall_forall. intros y Hy. apply in_map_iff in Hy. destruct Hy as [e [<- _]]. exists (fst e). reflexivity.
    - constructor.
    - constructor.
    - rewrite Hr. f_equal. cbn [app] in Hpr. apply sorted_unique; [| |exact Hsr|].
      + apply (Permutation_NoDup (Permutation_map fst Hpr)). rewrite map_map. unfold h. cbn [fst].
        rewrite <- (map_map fst VStr). apply FinFun.Injective_map_NoDup; [intros a b [= ->]; reflexivity|exact Hn].
      + rewrite <- Hpr. apply Permutation_map, Hp.
      + clear -Hs. induction sorted as [|x sorted IH]; cbn [map] in *; [constructor|].
        inversion Hs as [|? ? Hs' Hf]; subst. constructor; [apply IH, Hs'|]. rewrite Forall_forall in *. intros y Hy.
        apply in_map_iff in Hy. destruct Hy as [z [<- Hz]]. exists (fst x), (fst z). split; [reflexivity|]. split; [reflexivity|].
        apply Hf, in_map, Hz. }
  rewrite Hsort. cbn [bind]. rewrite (dict_rounds_blocks _ _ _ _ _ sorted).
  - reflexivity.
  - assert (He : Forall (fun e => snd e <> [] /\ (smem (fst e) masks = true -> snd e = [$"***MASKED***"])) sorted).
    { apply (Permutation_Forall Hp). apply Forall_forall. intros e He. clear -H He.
      assert (Hx : exists kx, In kx l /\ fst kx = VStr (fst e) /\ snd e <> []
         /\ (if smem (fst e) masks then Ok (One $"***MASKED***") else fv (snd kx)) = Ok (of_lines (snd e))).
      { induction H as [|a b l entries Hab H IH]; [destruct He|]. destruct He as [<-|He]; [exists a; split; [left; reflexivity|exact Hab]|].
        destruct (IH He) as [y [Hy HP]]. exists y. split; [right; exact Hy|exact HP]. }
      destruct Hx as [kx [_ [_ [Hb Hd]]]]. split; [exact Hb|]. intros Hm. rewrite Hm in Hd. destruct (snd e) as [|s [|? ?]]; [congruence| |discriminate Hd].
      cbn [of_lines] in Hd. assert (E : One $"***MASKED***" = One s) by congruence. injection E as E. rewrite <- E. reflexivity. }
    clear -He. induction He as [|e sorted [Hb Hm] He IH]; cbn [map]; constructor; [|exact IH].
    unfold h. cbn [fst snd]. split; [reflexivity|]. split; [exact Hb|]. destruct (smem (fst e) masks) eqn:E; [|reflexivity].
    rewrite (Hm eq_refl). reflexivity.
Qed.

Lemma shows_format repr text masks width v : forall level lines,
  shows repr masks width level v lines ->
  format_value repr text false masks width level v = Ok (of_lines lines) /\ lines <> [] /\ (forall s, lines = [s] -> compact s).
Proof.
  induction v as [v IH] using val_ind'. intros level lines H. inversion H as [lv v' s Hf Hc|lv v' values texts op cl Hv Hl Hz|lv v' values blocks op cl Hv Hl Hz|lv o l entries sorted Hl Hn Hp Hs]; subst.
  - split; [apply flat_value, Hf|]. split; [discriminate|]. intros t [= <-]. exact Hc.
  - assert (Hw : forall x, In x values -> In x (subvals v)) by (destruct Hv as [[-> _]|[-> _]]; auto).
    assert (Hb : Forall2 (fun x b => format_value repr text false masks width (S level) x = Ok (of_lines b) /\ b <> []) values (map (fun s => [s]) texts)).
    { clear -Hl Hw IH. induction Hl as [|x s values texts Hx Hl IHl]; constructor.
      - destruct (IH x (Hw x (or_introl eq_refl)) _ _ Hx) as [H1 [H2 _]]. split; assumption.
      - apply IHl. intros y Hy. apply Hw. right. exact Hy. }
    assert (Hc : Forall compact texts).
    { clear -Hl Hw IH. induction Hl as [|x s values texts Hx Hl IHl]; constructor.
      - destruct (IH x (Hw x (or_introl eq_refl)) _ _ Hx) as [_ [_ H3]]. apply H3. reflexivity.
      - apply IHl. intros y Hy. apply Hw. right. exact Hy. }
    assert (Hfmt : format_list width level op cl (map (format_value repr text false masks width (S level)) values)
                   = Ok (One (op ++ join $", " texts ++ cl))).
    { unfold format_list. rewrite (list_rounds_blocks _ _ _ _ _ Hb). cbn [bind fst snd]. rewrite trimmed_texts by exact Hc.
      rewrite singles_single. apply Z.leb_le in Hz. cbv zeta. rewrite Hz. reflexivity. }
    destruct Hv as [[-> [-> ->]]|[-> [-> ->]]].
    + rewrite format_list_eq, Hfmt. split; [reflexivity|]. split; [discriminate|]. intros t [= <-].
      apply (compact_wrapped 91 93); [reflexivity|reflexivity|discriminate].
    + rewrite format_tuple_eq, Hfmt. split; [reflexivity|]. split; [discriminate|]. intros t [= <-].
      apply (compact_wrapped 40 41); [reflexivity|reflexivity|discriminate].
  - assert (Hw : forall x, In x values -> In x (subvals v)) by (destruct Hv as [[-> _]|[-> _]]; auto).
    assert (Hb : Forall2 (fun x b => format_value repr text false masks width (S level) x = Ok (of_lines b) /\ b <> []) values blocks).
    { clear -Hl Hw IH. induction Hl as [|x s values texts Hx Hl IHl]; constructor.
      - destruct (IH x (Hw x (or_introl eq_refl)) _ _ Hx) as [H1 [H2 _]]. split; assumption.
      - apply IHl. intros y Hy. apply Hw. right. exact Hy. }
    assert (Hc : forall texts, blocks = map (fun s => [s]) texts -> Forall compact texts).
    { clear -Hl Hw IH. induction Hl as [|x b values blocks Hx Hl IHl]; intros texts E.
      - destruct texts; [constructor|discriminate E].
      - destruct texts as [|t texts]; [discriminate E|]. cbn [map] in E. injection E as -> E. constructor.
        + destruct (IH x (Hw x (or_introl eq_refl)) _ _ Hx) as [_ [_ H3]]. apply H3. reflexivity.
        + apply IHl; [|exact E]. intros y Hy. apply Hw. right. exact Hy. }
    set (mid := concat (map (hung (blanks (width * S level)) []) blocks)).
    assert (Hfmt : format_list width level op cl (map (format_value repr text false masks width (S level)) values)
                   = Ok (of_lines ([op] ++ mid ++ [cl]))).
    { rewrite of_lines_many. unfold format_list. rewrite (list_rounds_blocks _ _ _ _ _ Hb). cbn [bind fst snd]. fold mid. cbv zeta.
      destruct (forallb single blocks) eqn:E; [|reflexivity]. destruct (singles_texts _ E) as [texts ->]. unfold mid.
      rewrite trimmed_texts by (apply Hc; reflexivity). specialize (Hz _ eq_refl). apply Z.leb_gt in Hz. cbn [andb]. rewrite Hz. reflexivity. }
    destruct Hv as [[-> [-> ->]]|[-> [-> ->]]].
    + rewrite format_list_eq, Hfmt. split; [reflexivity|]. split; [discriminate|]. intros t E. exfalso.
      destruct mid; discriminate E.
    + rewrite format_tuple_eq, Hfmt. split; [reflexivity|]. split; [discriminate|]. intros t E. exfalso.
      destruct mid; discriminate E.
  - rewrite format_dict_eq. rewrite (str_dict_sorted _ _ _ _ _ (format_value repr text false masks width (S level)) l entries sorted).
    + split; [|split; [discriminate|]].
      * rewrite (app_assoc (concat (map item _))). cbv zeta. symmetry. f_equal. exact (of_lines_many _ _ _).
      * intros t E. exfalso. injection E as _ E. apply app_eq_nil in E. destruct E as [_ E]. apply app_eq_nil in E. destruct E as [_ E]. discriminate E.
    + assert (Hw : forall kx, In kx l -> In (snd kx) (subvals (VDict o l)))
        by (intros kx Hkx; cbn [subvals]; apply in_flat_map; exists kx; split; [exact Hkx|right; left; reflexivity]).
      revert Hw. generalize (VDict o l) as d, IH. clear -Hl. intros d IH Hw. revert IH Hw.
      induction Hl as [|kx e l entries [Hk He] Hl IHl]; intros IH Hw; constructor.
      * split; [exact Hk|]. destruct He as [[Hin ->]|[Hin Hsh]].
        -- split; [discriminate|]. apply smem_In in Hin. rewrite Hin. reflexivity.
        -- apply smem_false in Hin. rewrite Hin. destruct (IH _ (Hw kx (or_introl eq_refl)) _ _ Hsh) as [H1 [H2 _]]. split; assumption.
      * apply IHl; [exact IH|]. intros y Hy. apply Hw. right. exact Hy.
    + exact Hn.
    + exact Hp.
    + exact Hs.
Qed.

(** @prop C78 Values of any depth are shown as [shows] says: line by line, masked values replaced, what fits
    on one line of 60 characters there and the rest one below the other. *)
Lemma structure_shown :
  forall repr text masks width level v lines,
    shows repr masks width level v lines ->
    format_structure repr text false masks width level v = Ok (join [10%N] lines).
Proof.
  intros repr text masks width level v lines H. destruct (shows_format repr text _ _ _ _ _ H) as [Hf [Hne _]].
  unfold format_structure. rewrite Hf. cbn [bind]. destruct lines as [|s [|t r]]; [congruence|reflexivity|].
  cbn [of_lines]. rewrite <- app_removelast_last by discriminate. reflexivity.
Qed.
(** @example
Example C78_shown_example :
  let repr := fun v => match v with VStr s => $"'" ++ s ++ $"'" | _ => $"0" end in
  let v := VDict false [(VStr $"b", VList [VDict false [(VStr $"key", VNone)]; VInt 0]); (VStr $"c", VTuple [VInt 0; VList []])] in
  presentable repr v
  /\ format_structure repr (fun _ => $"?") false [$"key"] 2 0 v
     = Ok (join [10%N] [$"{"; $"  'c': (0, []),"; $"  'b': ["; $"    {"; $"      'key': ***MASKED***,"; $"    },"; $"    0,"; $"  ],"; $"}"]).
Proof.
  assert (Hc : compact $"0").
  { split; [discriminate|]. split; [intros c r [= <- _]; reflexivity|].
    intros c r H. apply (app_inj_tail [] r) in H. destruct H as [_ <-]. split; [reflexivity|discriminate]. }
  intros repr v. split; [|vm_compute; reflexivity].
  split; [exists [$"b"; $"c"]; split; [reflexivity|repeat constructor; cbn; intuition discriminate]|].
  split; [split; [split; [exists [$"key"]; split; [reflexivity|repeat constructor; intros []]|split; [exact Hc|exact I]]|split; [exact Hc|exact I]]|].
  split; [split; [exact Hc|split; [exact I|exact I]]|exact I].
Qed.
@end *)

Lemma all_list_Forall (P : val -> Prop) l :
  (fix all (l : list val) : Prop := match l with [] => True | x :: l' => P x /\ all l' end) l <-> Forall P l.
Proof.
  induction l as [|x l IH]; split; intros H; [constructor|exact I| |].
  - destruct H as [H1 H2]. constructor; [exact H1|apply IH, H2].
  - inversion H; subst. split; [assumption|apply IH; assumption].
Qed.
Lemma all_items_Forall (P : val -> Prop) (l : list (val * val)) :
  (fix all (l : list (val * val)) : Prop := match l with [] => True | (_, x) :: l' => P x /\ all l' end) l <-> Forall (fun kx => P (snd kx)) l.
Proof.
  induction l as [|[k x] l IH]; split; intros H; [constructor|exact I| |].
  - destruct H as [H1 H2]. constructor; [exact H1|apply IH, H2].
  - inversion H; subst. split; [assumption|apply IH; assumption].
Qed.

Lemma sorting {A} (l : list (str * A)) : exists sorted, Permutation l sorted /\ StronglySorted str_le (map fst sorted).
Proof.
  destruct (sort_texts (map (fun e : str * A => (VStr (fst e), e)) l) []) as [r [_ [Hp Hs]]].
  - apply Forall_forall. intros y Hy. apply in_map_iff in Hy. destruct Hy as [e [<- _]]. exists (fst e). reflexivity.
  - constructor.
  - constructor.
  - cbn [app] in Hp. exists (map snd r). split.
    + apply (Permutation_map snd) in Hp. rewrite map_map in Hp. cbn [snd] in Hp. rewrite map_id in Hp. exact Hp.
    + assert (Hr : Forall (fun y : val * (str * A) => fst y = VStr (fst (snd y))) r).
      { apply (Permutation_Forall Hp). apply Forall_forall. intros y Hy. apply in_map_iff in Hy. destruct Hy as [e [<- _]]. reflexivity. }
      clear -Hs Hr. induction Hs as [|y r Hs IH Hf]; cbn [map]; [constructor|]. inversion Hr as [|? ? Hy Hr']; subst.
      constructor; [apply IH, Hr'|]. rewrite Forall_forall in *. intros s Hin. apply in_map_iff in Hin. destruct Hin as [z [<- Hz]].
      apply in_map_iff in Hz. destruct Hz as [w [<- Hw]]. destruct (Hf w Hw) as [a [b [Ha [Hb Hab]]]].
      rewrite Hy in Ha. rewrite (Hr' w Hw) in Hb. injection Ha as ->. injection Hb as ->. exact Hab.
Qed.

Lemma forall2_choice {A B} (P : A -> B -> Prop) l : Forall (fun x => exists y, P x y) l -> exists m, Forall2 P l m.
Proof.
  intros H. induction H as [|x l [y Hy] H [m IH]]; [exists []; constructor|]. exists (y :: m). constructor; assumption.
Qed.

(** @prop C78 And every value of texts, numbers and containers is shown in such a way. *)
Lemma everything_shown :
  forall repr masks width v level, presentable repr v -> exists lines, shows repr masks width level v lines.
Proof.
  intros repr masks width v. induction v as [v IH] using val_ind'. intros level Hv.
  assert (Hseq : forall values opening closing,
    v = VList values /\ opening = $"[" /\ closing = $"]" \/ v = VTuple values /\ opening = $"(" /\ closing = $")" ->
    Forall (presentable repr) values -> exists lines, shows repr masks width level v lines).
  { intros values op cl Hk Hall. destruct (forall2_choice (fun x b => shows repr masks width (S level) x b) values) as [blocks Hb].
    { rewrite Forall_forall in *. intros x Hx. apply IH; [|apply Hall, Hx]. destruct Hk as [[-> _]|[-> _]]; exact Hx. }
    destruct (forallb single blocks) eqn:E.
    - destruct (singles_texts _ E) as [texts ->]. destruct (Z_le_gt_dec (zlen (op ++ join $", " texts ++ cl)) 60) as [Hz|Hz].
      + exists [op ++ join $", " texts ++ cl]. apply (shows_line _ _ _ _ _ values texts op cl Hk); [|exact Hz].
        clear -Hb. revert values Hb. induction texts as [|t texts IHt]; intros values Hb; inversion Hb; subst; constructor; auto.
      + eexists. apply (shows_lines _ _ _ _ _ values (map (fun s => [s]) texts) op cl Hk); [exact Hb|].
        intros texts' E'. assert (texts' = texts) as ->; [|lia].
        clear -E'. revert texts' E'. induction texts as [|t texts IHt]; intros [|t' texts'] E'; try discriminate E'; [reflexivity|].
        cbn [map] in E'. injection E' as -> E'. f_equal. apply IHt, E'.
    - eexists. apply (shows_lines _ _ _ _ _ values blocks op cl Hk); [exact Hb|]. intros texts ->.
      rewrite singles_single in E. discriminate E. }
  assert (Hflat : as_dict v = None -> (forall l, v <> VList l /\ v <> VTuple l) -> compact (repr v) -> exists lines, shows repr masks width level v lines).
  { intros H1 H2 H3. exists [repr v]. apply shows_flat; [|exact H3]. split; [exact H1|]. split; [exact H2|reflexivity]. }
  destruct v as [ | | | | | | | | | |l|l|o l|i l|i s w l|e|f]; cbn [presentable] in Hv;
    try solve [apply Hflat; [reflexivity|split; discriminate|exact Hv]].
  - apply (Hseq l _ _ (or_introl (conj eq_refl (conj eq_refl eq_refl)))). apply all_list_Forall, Hv.
  - apply (Hseq l _ _ (or_intror (conj eq_refl (conj eq_refl eq_refl)))). apply all_list_Forall, Hv.
  - destruct Hv as [[names [Hk Hn]] Hv]. apply all_items_Forall in Hv.
    destruct (forall2_choice (fun (kx : val * val) (e : str * list str) => fst kx = VStr (fst e)
               /\ (In (fst e) masks /\ snd e = [$"***MASKED***"]
                   \/ ~ In (fst e) masks /\ shows repr masks width (S level) (snd kx) (snd e))) l) as [entries He].
    { apply Forall_forall. intros [k x] Hx. assert (Hks : In k (map VStr names)) by (rewrite <- Hk; exact (in_map fst _ _ Hx)).
      apply in_map_iff in Hks. destruct Hks as [n [<- _]]. destruct (smem n masks) eqn:Em.
      - exists (n, [$"***MASKED***"]). split; [reflexivity|]. left. split; [apply smem_In, Em|reflexivity].
      - rewrite Forall_forall in Hv. destruct (IH x) with (level := S level) as [lines Hl].
        + cbn [subvals]. apply in_flat_map. exists (VStr n, x). split; [exact Hx|right; left; reflexivity].
        + exact (Hv _ Hx).
        + exists (n, lines). split; [reflexivity|]. right. split; [apply smem_false, Em|exact Hl]. }
    assert (Hne : map fst entries = names).
    { clear -He Hk. revert names Hk. induction He as [|kx e l entries [H1 _] He IHe]; intros [|n names] Hk; try discriminate Hk; [reflexivity|].
      cbn [map] in *. injection Hk as Hk1 Hk2. rewrite (IHe _ Hk2). rewrite H1 in Hk1. injection Hk1 as ->. reflexivity. }
    destruct (sorting entries) as [sorted [Hp Hs]]. eexists. apply (shows_dict _ _ _ _ _ _ entries sorted He); [rewrite Hne; exact Hn|exact Hp|exact Hs].
  - contradiction.
Qed.
(** @example
Example C78_everything_example :
  presentable (fun v => match v with VStr s => $"'" ++ s ++ $"'" | _ => $"[]" end) (VList [VList [VNone]]).
Proof.
  split; [split; [|exact I]|exact I]. split; [discriminate|]. split; [intros c r [= <- _]; reflexivity|].
  intros c r H. apply (app_inj_tail [91%N] r) in H. destruct H as [_ <-]. split; [reflexivity|discriminate].
Qed.
@end *)
