(** * The YAML format (C62). *)
(* @imports Spec Demo YamlSpec *)
From Coq Require Import ZifyBool ZifyN ZifyNat Permutation.
From Verif Require Import PyBaseFacts Induct Spec Demo ProcessFacts NumFacts StructFacts StructProofs NumProofs StSpec StProofs XmlProofs YamlSpec.
Open Scope N_scope.

(** ** The recursive function as maps *)

Definition entry E wrap level (kx : val * val) : res (list str) :=
  do c <- yaml_value E wrap (snd kx) (S level);
  entry_lines (indents level ++ text_of E (fst kx) ++ $":") (match snd kx with VStr _ => true | _ => false end) c.
Definition item E wrap level (x : val) : res (list str) :=
  do c <- yaml_value E wrap x (S level); item_lines (indents level ++ $"-") c.

Definition structure_content (items : res (list (val * res (list str)))) : res content :=
  do items <- items; do groups <- in_turn (map snd items); Ok (Block (concat groups)).

Lemma yaml_dict E wrap o l level : yaml_value E wrap (VDict o l) level =
  match l with
  | [] => Ok (Inline $"{}")
  | _ => structure_content ((if o then fun x => Ok x else sorted_items) (map (fun kx => (fst kx, entry E wrap level kx)) l))
  end.
Proof.
  unfold structure_content. destruct l as [|[k x] l]; [reflexivity|].
  assert (H : forall m, (fix go (l : list (val * val)) : list (val * res (list str)) :=
    match l with
    | [] => []
    | (k, x) :: l' =>
        (k, do c <- yaml_value E wrap x (S level);
            entry_lines (indents level ++ text_of E k ++ $":") (match x with VStr _ => true | _ => false end) c)
        :: go l'
    end) m = map (fun kx => (fst kx, entry E wrap level kx)) m).
  { induction m as [|[k' x'] m IH]; [reflexivity|]. cbn [map fst snd]. rewrite <- IH. reflexivity. }
  rewrite <- H. destruct o; reflexivity.
Qed.

Lemma yaml_surr E wrap a b c l level : yaml_value E wrap (VSurr a b c l) level = yaml_value E wrap (VDict false l) level.
Proof. reflexivity. Qed.

Lemma yaml_list E wrap l level : yaml_value E wrap (VList l) level =
  match l with
  | [] => Ok (Inline $"[]")
  | _ => if forallb simple_item l then do parts <- in_turn (map (yaml_scalar E) l); Ok (Inline ($"[" ++ join $", " parts ++ $"]"))
         else do groups <- in_turn (map (item E wrap level) l); Ok (Block (concat groups))
  end.
Proof.
  destruct l as [|x l]; [reflexivity|].
  assert (H : forall m, (fix go (l : list val) : list (res (list str)) :=
    match l with
    | [] => []
    | x :: l' => (do c <- yaml_value E wrap x (S level); item_lines (indents level ++ $"-") c) :: go l'
    end) m = map (item E wrap level) m).
  { induction m as [|x' m IH]; [reflexivity|]. cbn [map]. rewrite <- IH. reflexivity. }
  rewrite <- H. reflexivity.
Qed.

Lemma yaml_tuple E wrap l level : yaml_value E wrap (VTuple l) level = yaml_value E wrap (VList l) level.
Proof. reflexivity. Qed.

Lemma in_turn_map {A B} (f : A -> res B) l gs : in_turn (map f l) = Ok gs -> Forall2 (fun x g => f x = Ok g) l gs.
Proof.
  revert gs. induction l as [|x l IH]; cbn [map in_turn]; intros gs H; [injection H as <-; constructor|].
  destruct (f x) as [g|e] eqn:Hx; [|discriminate H]. cbn [bind] in H. destruct (in_turn (map f l)) as [r|e]; [|discriminate H].
  cbn [bind] in H. injection H as <-. constructor; [exact Hx|apply IH; reflexivity].
Qed.

Lemma in_turn_ok {A B} (f : A -> res B) l : (forall x, In x l -> exists g, f x = Ok g) -> exists gs, in_turn (map f l) = Ok gs.
Proof.
  induction l as [|x l IH]; intros H; [exists []; reflexivity|]. destruct (H x (or_introl eq_refl)) as [g Hg].
  destruct (IH (fun y Hy => H y (or_intror Hy))) as [gs Hgs]. exists (g :: gs). cbn [map in_turn]. rewrite Hg, Hgs. reflexivity.
Qed.

(** ** Sorting keeps the entries together *)

Lemma insert_item_map {A B} (f : str * A -> B) kv (l : list (str * A)) :
  insert_item (fst kv, f kv) (map (fun kx => (fst kx, f kx)) l) = map (fun kx => (fst kx, f kx)) (insert_item kv l).
Proof. induction l as [|kw l IH]; [reflexivity|]. cbn [map insert_item fst]. destruct (str_leb (fst kv) (fst kw)); [reflexivity|]. cbn [map]. rewrite IH. reflexivity. Qed.

Lemma sort_items_map {A B} (f : str * A -> B) (l : list (str * A)) :
  fold_right insert_item [] (map (fun kx => (fst kx, f kx)) l) = map (fun kx => (fst kx, f kx)) (fold_right insert_item [] l).
Proof. induction l as [|kv l IH]; [reflexivity|]. cbn [map fold_right]. rewrite IH. apply insert_item_map. Qed.

Lemma insert_numbered_map {A B} (f : Z * A -> B) kv (l : list (Z * A)) :
  insert_numbered (fst kv, f kv) (map (fun kx => (fst kx, f kx)) l) = map (fun kx => (fst kx, f kx)) (insert_numbered kv l).
Proof. induction l as [|kw l IH]; [reflexivity|]. cbn [map insert_numbered fst]. destruct (fst kv <=? fst kw)%Z; [reflexivity|]. cbn [map]. rewrite IH. reflexivity. Qed.

Lemma sort_numbered_map {A B} (f : Z * A -> B) (l : list (Z * A)) :
  fold_right insert_numbered [] (map (fun kx => (fst kx, f kx)) l) = map (fun kx => (fst kx, f kx)) (fold_right insert_numbered [] l).
Proof. induction l as [|kv l IH]; [reflexivity|]. cbn [map fold_right]. rewrite IH. apply insert_numbered_map. Qed.

Lemma insert_numbered_perm {A} (kv : Z * A) l : Permutation (kv :: l) (insert_numbered kv l).
Proof.
  induction l as [|kw l IH]; [reflexivity|]. cbn [insert_numbered]. destruct (fst kv <=? fst kw)%Z; [reflexivity|].
  rewrite <- IH. apply perm_swap.
Qed.

Lemma sort_numbered_perm {A} (l : list (Z * A)) : Permutation l (fold_right insert_numbered [] l).
Proof. induction l as [|kv l IH]; [reflexivity|]. cbn [fold_right]. rewrite <- insert_numbered_perm. apply perm_skip, IH. Qed.

Lemma keyed_map {K A B} proj (f : val * A -> B) (l : list (val * A)) (r : list (K * B)) :
  keyed proj (map (fun kx => (fst kx, f kx)) l) = Some r ->
  exists ks, keyed proj l = Some (combine ks (map snd l)) /\ r = combine ks (map f l) /\ length ks = length l /\ Forall2 (fun kx k => proj (fst kx) = Some k) l ks.
Proof.
  revert r. induction l as [|[k x] l IH]; cbn [map keyed fst]; intros r H.
  - injection H as <-. exists []. repeat split; constructor.
  - destruct (proj k) as [a|] eqn:Ha; [|discriminate H]. destruct (keyed proj (map (fun kx => (fst kx, f kx)) l)) as [r'|]; [|discriminate H].
    injection H as <-. destruct (IH r' eq_refl) as [ks [H1 [-> [H2 H3]]]]. exists (a :: ks). rewrite H1. cbn [combine map length snd].
    repeat split; [congruence|constructor; assumption].
Qed.

Lemma sorted_items_map {B} (f : val * val -> B) (l : list (val * val)) items :
  sorted_items (map (fun kx => (fst kx, f kx)) l) = Ok items ->
  exists l', Permutation l l' /\ items = map (fun kx => (fst kx, f kx)) l'.
Proof.
  unfold sorted_items. intros H.
  assert (Hstr : forall ks, Forall2 (fun (kx : val * val) k => match fst kx with VStr s => Some s | _ => None end = Some k) l ks ->
     l = map (fun kx => (VStr (fst kx), snd kx)) (combine ks (map snd l))
     /\ combine ks (map f l) = map (fun kx => (fst kx, f (VStr (fst kx), snd kx))) (combine ks (map snd l))).
  { clear H. intros ks Hf. induction Hf as [|[k x] s l' ks' Hk Hf IH]; [split; reflexivity|]. cbn [fst] in Hk. destruct k; try discriminate Hk. injection Hk as ->.
    cbn [map combine fst snd]. destruct IH as [IH1 IH2]. split; f_equal; assumption. }
  assert (Hint : forall ks, Forall2 (fun (kx : val * val) k => match fst kx with VInt s => Some s | _ => None end = Some k) l ks ->
     l = map (fun kx => (VInt (fst kx), snd kx)) (combine ks (map snd l))
     /\ combine ks (map f l) = map (fun kx => (fst kx, f (VInt (fst kx), snd kx))) (combine ks (map snd l))).
  { clear H Hstr. intros ks Hf. induction Hf as [|[k x] s l' ks' Hk Hf IH]; [split; reflexivity|]. cbn [fst] in Hk. destruct k; try discriminate Hk. injection Hk as ->.
    cbn [map combine fst snd]. destruct IH as [IH1 IH2]. split; f_equal; assumption. }
  destruct (keyed _ (map (fun kx => (fst kx, f kx)) l)) as [r|] eqn:Hk.
  - apply keyed_map in Hk. destruct Hk as [ks [_ [-> [_ Hf]]]]. destruct (Hstr ks Hf) as [Hl Hc]. rewrite Hc in H. injection H as <-.
    rewrite sort_items_map with (f := fun kx => f (VStr (fst kx), snd kx)). rewrite map_map. cbn [fst snd].
    exists (map (fun kx => (VStr (fst kx), snd kx)) (fold_right insert_item [] (combine ks (map snd l)))). split.
    + rewrite Hl at 1. apply Permutation_map, sort_items_perm.
    + rewrite map_map. reflexivity.
  - clear Hk. destruct (keyed _ (map (fun kx => (fst kx, f kx)) l)) as [r|] eqn:Hk.
    + apply keyed_map in Hk. destruct Hk as [ks [_ [-> [_ Hf]]]]. destruct (Hint ks Hf) as [Hl Hc]. rewrite Hc in H. injection H as <-.
      rewrite sort_numbered_map with (f := fun kx => f (VInt (fst kx), snd kx)). rewrite map_map. cbn [fst snd].
      exists (map (fun kx => (VInt (fst kx), snd kx)) (fold_right insert_numbered [] (combine ks (map snd l)))). split.
      * rewrite Hl at 1. apply Permutation_map, sort_numbered_perm.
      * rewrite map_map. reflexivity.
    + destruct l as [|kx [|ky l]]; try discriminate H. injection H as <-. exists [kx]. split; reflexivity.
Qed.

Lemma structure_groups E wrap (o : bool) l level c :
  structure_content ((if o then fun x => Ok x else sorted_items) (map (fun kx => (fst kx, entry E wrap level kx)) l)) = Ok c ->
  exists l' groups, Permutation l l' /\ (o = true -> l' = l) /\ c = Block (concat groups)
                    /\ Forall2 (fun kx g => entry E wrap level kx = Ok g) l' groups.
Proof.
  unfold structure_content. intros H.
  assert (Hi : exists l', Permutation l l' /\ (o = true -> l' = l)
    /\ (if o then fun x => Ok x else sorted_items) (map (fun kx => (fst kx, entry E wrap level kx)) l) = Ok (map (fun kx => (fst kx, entry E wrap level kx)) l')).
  { destruct o; [exists l; split; [reflexivity|split; reflexivity]|].
    destruct (sorted_items _) as [items|e] eqn:Hs; [|discriminate H]. destruct (sorted_items_map _ _ _ Hs) as [l' [Hp ->]].
    exists l'. split; [exact Hp|]. split; [discriminate|reflexivity]. }
  destruct Hi as [l' [Hp [Ho Hi]]]. rewrite Hi in H. cbn [bind] in H. rewrite map_map in H. cbn [snd] in H.
  destruct (in_turn (map (fun kx => entry E wrap level kx) l')) as [gs|e] eqn:Hg; [|discriminate H]. cbn [bind] in H. injection H as <-.
  exists l', gs. split; [exact Hp|]. split; [exact Ho|]. split; [reflexivity|]. apply in_turn_map. exact Hg.
Qed.

(** ** Layout *)

Definition tail_lines (c : content) : list str := match c with Inline _ => [] | Block l => tl l end.

Lemma indents_S level r : indents (S level) ++ r = indents level ++ 32 :: 32 :: r.
Proof. induction level as [|n IH]; [reflexivity|]. change (indents (S (S n))) with (32 :: 32 :: indents (S n)). change (indents (S n)) with (32 :: 32 :: indents n) at 2. cbn [app] in *. rewrite IH. reflexivity. Qed.

Lemma indented_S level line : indented (S level) line -> indented level line.
Proof. intros [->|[r ->]]; [left; reflexivity|]. right. rewrite indents_S. eexists. reflexivity. Qed.

Lemma string_lines wrap s level : wraps wrap -> Forall (indented level) (tail_lines (yaml_string wrap s level)).
Proof.
  intros [Hw _]. unfold yaml_string. destruct s as [|c s]; [constructor|]. set (t := c :: s).
  destruct ((length t <=? 5)%nat && _); [constructor|]. destruct (existsb (N.eqb 10) t).
  - cbn [tail_lines tl]. apply Forall_forall. intros line Hin. apply in_map_iff in Hin. destruct Hin as [x [<- _]].
    destruct x; [left; reflexivity|right; eexists; reflexivity].
  - destruct (length t + 2 * level <=? 100)%nat; [constructor|]. cbn [tail_lines]. apply Forall_forall. intros line Hin.
    assert (Hin' : In line (flat_map (wrap (indents level)) (split_lines (if requires_escaping t then yaml_quote t else t)))) by (destruct (flat_map _ _); [destruct Hin|right; exact Hin]).
    apply in_flat_map in Hin'. destruct Hin' as [x [_ Hx]]. right. apply (Hw _ _ _ Hx).
Qed.

Lemma concat_opened level gs : Forall (fun g => exists o, opened level o g) gs -> Forall (indented level) (concat gs).
Proof.
  induction 1 as [|g gs [o [text [others [-> Ho]]]] _ IH]; [constructor|]. cbn [concat app]. constructor; [right; eexists; reflexivity|].
  apply Forall_app. split; [|exact IH]. apply (Forall_impl _ (indented_S level) Ho).
Qed.

Lemma item_opened level prefix c g : item_lines (indents level ++ prefix) c = Ok g -> Forall (indented (S level)) (tail_lines c) -> opened level (prefix ++ $" ") g.
Proof.
  intros H Hc. unfold item_lines in H. destruct c as [s|[|first others]]; [|discriminate H|]; injection H as <-.
  - exists s, []. rewrite <- !app_assoc. split; [reflexivity|constructor].
  - exists (lstrip is_space first), others. rewrite <- !app_assoc. split; [reflexivity|exact Hc].
Qed.

(** All lines of what is not a text are indented; of a text, all but the first. *)
Definition laid (v : val) (level : nat) (c : content) : Prop :=
  Forall (indented level) (tail_lines c) /\ match v, c with VStr _, _ => True | _, Block l => Forall (indented level) l | _, _ => True end.

Lemma laid_block v level l : Forall (indented level) l -> laid v level (Block l).
Proof. intros H. split; [destruct H; [constructor|assumption]|destruct v; exact H || exact I]. Qed.

Lemma laid_inline v level s : laid v level (Inline s).
Proof. split; [constructor|destruct v; exact I]. Qed.

Lemma entry_opened E wrap level kx g :
  (forall c, yaml_value E wrap (snd kx) (S level) = Ok c -> laid (snd kx) (S level) c) ->
  entry E wrap level kx = Ok g -> opened level (text_of E (fst kx) ++ $":") g.
Proof.
  intros Hl H. unfold entry in H. destruct (yaml_value E wrap (snd kx) (S level)) as [c|e]; [|discriminate H]. cbn [bind] in H.
  specialize (Hl c eq_refl).
  assert (Hi : item_lines (indents level ++ text_of E (fst kx) ++ $":") c = Ok g -> opened level (text_of E (fst kx) ++ $":") g).
  { intros Hi. destruct (item_opened _ _ _ _ Hi (proj1 Hl)) as [text [others [-> Ho]]]. exists ($" " ++ text), others. split; [rewrite <- !app_assoc; reflexivity|exact Ho]. }
  unfold entry_lines in H. destruct (snd kx); try (apply Hi; exact H);
    (destruct c as [s'|l']; [apply Hi; exact H|]; injection H as <-; exists [], l'; rewrite app_nil_r; split; [reflexivity|apply (proj2 Hl)]).
Qed.

Lemma laid_out E wrap v : wraps wrap -> forall level c, yaml_value E wrap v level = Ok c -> laid v level c.
Proof.
  intros Hw. induction v as [v IH] using val_ind'. intros level c H.
  assert (Hscalar : (do t <- yaml_scalar E v; Ok (Inline t)) = Ok c -> laid v level c).
  { intros Hs. destruct (yaml_scalar E v); [|discriminate Hs]. injection Hs as <-. apply laid_inline. }
  assert (Hlist : forall l, (forall x, In x l -> In x (subvals v)) -> yaml_value E wrap (VList l) level = Ok c -> laid v level c).
  { intros l Hl Hv. rewrite yaml_list in Hv. destruct l as [|x l]; [injection Hv as <-; apply laid_inline|].
    destruct (forallb simple_item (x :: l)).
    - destruct (in_turn _); [|discriminate Hv]. injection Hv as <-. apply laid_inline.
    - destruct (in_turn _) as [gs|e] eqn:Hg; [|discriminate Hv]. injection Hv as <-. apply in_turn_map in Hg. apply laid_block, concat_opened.
      assert (Hall : forall x0, In x0 (x :: l) -> In x0 (subvals v)) by exact Hl. clear Hl. revert Hg Hall. generalize (x :: l). intros m Hg. clear Hscalar H.
      induction Hg as [|y g ys gs' Hy _ IHg]; intros Hall; [constructor|]. constructor; [|apply IHg; intros z Hz; apply Hall; right; exact Hz].
      unfold item in Hy. destruct (yaml_value E wrap y (S level)) as [cy|] eqn:Hcy; [|discriminate Hy]. exists ($"-" ++ $" ").
      apply (item_opened _ _ _ _ Hy). apply (IH y (Hall y (or_introl eq_refl)) _ _ Hcy). }
  assert (Hdict : forall o l, (forall k x, In (k, x) l -> In x (subvals v)) -> yaml_value E wrap (VDict o l) level = Ok c -> laid v level c).
  { intros o l Hl Hv. rewrite yaml_dict in Hv. destruct l as [|kx l]; [injection Hv as <-; apply laid_inline|].
    destruct (structure_groups E wrap o (kx :: l) level c Hv) as [l' [gs [Hp [_ [-> Hg]]]]]. apply laid_block, concat_opened.
    assert (Hall : forall k x0, In (k, x0) l' -> In x0 (subvals v)) by (intros k x0 Hin; apply (Hl k x0); apply Permutation_in with (1 := Permutation_sym Hp); exact Hin).
    clear Hp Hv Hl Hscalar Hlist H. induction Hg as [|[k y] g ys gs' Hy _ IHg]; [constructor|]. constructor; [|apply IHg; intros k' z Hz; apply (Hall k' z); right; exact Hz].
    eexists. apply (entry_opened E wrap level (k, y) g); [|exact Hy]. cbn [snd]. intros cy Hcy. apply (IH y (Hall k y (or_introl eq_refl)) _ _ Hcy). }
  destruct v; try (apply Hscalar; exact H).
  - cbn [yaml_value] in H. injection H as <-. split; [apply string_lines; exact Hw|exact I].
  - apply (Hlist l); [intros x Hx; exact Hx|exact H].
  - apply (Hlist l); [intros x Hx; exact Hx|exact H].
  - apply (Hdict ordered l); [|exact H]. intros k x Hx. cbn [subvals]. apply in_flat_map. exists (k, x). split; [exact Hx|right; left; reflexivity].
  - apply (Hdict false l); [|exact H]. intros k x Hx. cbn [subvals]. apply in_flat_map. exists (k, x). split; [exact Hx|right; left; reflexivity].
Qed.

(** @prop C62 A sequence that does not fit on one line is written as one block per item, in order:
    the first line of a block is the indent of the level and a dash, the others are indented further. *)
Lemma yaml_sequence_blocks :
  forall E wrap l level lines,
    wraps wrap -> yaml_value E wrap (VList l) level = Ok (Block lines) ->
    exists blocks, lines = concat blocks /\ Forall2 (fun _ block => opened level $"- " block) l blocks.
Proof.
  intros E wrap l level lines Hw H. rewrite yaml_list in H. destruct l as [|x l]; [discriminate H|].
  destruct (forallb simple_item (x :: l)); [destruct (in_turn _); discriminate H|].
  destruct (in_turn _) as [gs|e] eqn:Hg; [|discriminate H]. injection H as <-. exists gs. split; [reflexivity|].
  apply in_turn_map in Hg. revert Hg. generalize (x :: l). intros m Hg. clear -Hg Hw. induction Hg as [|y g ys gs Hy _ IH]; [constructor|]. constructor; [|exact IH].
  unfold item in Hy. destruct (yaml_value E wrap y (S level)) as [c|] eqn:Hc; [|discriminate Hy].
  apply (item_opened _ $"-" _ _ Hy). apply (laid_out E wrap y Hw _ _ Hc).
Qed.

(** @example
Definition wrap62 (indent line : str) : list str := match line with [] => [] | _ => [indent ++ line] end.
Example C62_wraps : wraps wrap62.
Proof.
  split; [|intros i line H; destruct line; [congruence|discriminate]]. intros i [|c line] out H; [destruct H|].
  destruct H as [<-|[]]. exists (c :: line). reflexivity.
Qed.
Definition items62 : list val :=
  [VList [VStr $"a"; VInt 1]; VDict false [(VStr $"k", VStr ($"x" ++ [10%N] ++ $"y")); (VStr $"b", VList [VNone; VBool true])]; VStr $"- z"].
Example C62_sequence_example :
  yaml_value env0 wrap62 (VList items62) 1
  = Ok (Block [$"  - - a"; $"    - 1"; $"  - b: [null, true]"; $"    k: |"; $"      x"; $"      y"; $"  - '- z'"]).
Proof. vm_compute. reflexivity. Qed.
@end *)

(** @prop C62 A structure that is not empty is written as one block per entry, an OrderedDict in its
    order: the first line of a block is the indent of the level, the key and a colon, the others are
    indented further. *)
Lemma yaml_structure_blocks :
  forall E wrap ordered l level lines,
    wraps wrap -> yaml_value E wrap (VDict ordered l) level = Ok (Block lines) ->
    exists entries blocks,
      Permutation l entries /\ (ordered = true -> entries = l) /\ lines = concat blocks
      /\ Forall2 (fun kv block => opened level (text_of E (fst kv) ++ $":") block) entries blocks.
Proof.
  intros E wrap o l level lines Hw H. rewrite yaml_dict in H. destruct l as [|kx l]; [discriminate H|].
  destruct (structure_groups _ _ _ _ _ _ H) as [l' [gs [Hp [Ho [Hb Hg]]]]]. injection Hb as ->. exists l', gs.
  split; [exact Hp|]. split; [exact Ho|]. split; [reflexivity|]. clear -Hg Hw.
  induction Hg as [|y g ys gs Hy _ IH]; [constructor|]. constructor; [|exact IH].
  apply (entry_opened E wrap level y g); [|exact Hy]. intros c Hc. apply (laid_out E wrap (snd y) Hw _ _ Hc).
Qed.

(** @example
Example C62_structure_example :
  yaml_value env0 wrap62 (VDict true [(VStr $"z", VDict false []); (VInt 3, VList [VStr $"a"])]) 1
  = Ok (Block [$"  z: {}"; $"  3:"; $"    - a"])
  /\ yaml_serialize env0 wrap62 (VDict false [(VStr $"z", VDict false []); (VStr $"a", VTuple [VStr $"true"; VStr []])])
     = Ok ($"a:" ++ [10%N] ++ $"  - 'true'" ++ [10%N] ++ $"  - ''" ++ [10%N] ++ $"z: {}").
Proof. split; vm_compute; reflexivity. Qed.
@end *)

(** ** What is written and what is not *)

Lemma scalar_ok E v : yaml_leaf v -> (forall s, v <> VStr s) -> exists t, yaml_scalar E v = Ok t.
Proof. intros Hl Hn. destruct v; try contradiction; cbn [yaml_scalar]; try (eexists; reflexivity); [destruct b; eexists; reflexivity|exfalso; apply (Hn s); reflexivity]. Qed.

Lemma split_lines_some s c : In c s -> line_break c = false -> exists l, In l (split_lines s) /\ l <> [].
Proof.
  induction s as [|d s IH]; [intros []|]. intros [->|Hin] Hc.
  - cbn [split_lines]. rewrite Hc. destruct (split_lines s) as [|l ls]; [exists [c]; split; [left; reflexivity|discriminate]|].
    exists (c :: l). split; [left; reflexivity|discriminate].
  - destruct (IH Hin Hc) as [l [Hl Hn]]. cbn [split_lines]. destruct (line_break d); [exists l; split; [right; exact Hl|exact Hn]|].
    destruct (split_lines s) as [|l0 ls]; [destruct Hl|]. destruct Hl as [->|Hl]; [exists (d :: l); split; [left; reflexivity|discriminate]|].
    exists l. split; [right; exact Hl|exact Hn].
Qed.

Lemma string_some wrap s level : wraps wrap -> s = [] \/ In 10 s \/ (exists c, In c s /\ line_break c = false) ->
  yaml_string wrap s level <> Block [].
Proof.
  intros [_ Hw] Hs. unfold yaml_string. destruct s as [|c0 s0]; [discriminate|]. set (t := c0 :: s0) in *.
  destruct ((length t <=? 5)%nat && _); [discriminate|]. destruct (existsb (N.eqb 10) t) eqn:H10; [discriminate|].
  destruct (length t + 2 * level <=? 100)%nat; [discriminate|]. intros H. apply (f_equal (fun c => match c with Block l => l | _ => [[]] end)) in H. cbv beta iota in H.
  assert (Hc : exists c, In c (if requires_escaping t then yaml_quote t else t) /\ line_break c = false).
  { destruct (requires_escaping t); [exists 39; split; [left; reflexivity|reflexivity]|].
    destruct Hs as [Hs|[Hs|Hs]]; [discriminate Hs| |exact Hs].
    assert (existsb (N.eqb 10) t = true) by (apply existsb_exists; exists 10; split; [exact Hs|reflexivity]). congruence. }
  destruct Hc as [c [Hin Hc]]. destruct (split_lines_some _ _ Hin Hc) as [l [Hl Hn]].
  apply (Hw (indents level)) in Hn. destruct (wrap (indents level) l) as [|x r] eqn:Hx; [congruence|].
  assert (Hin2 : In x (flat_map (wrap (indents level)) (split_lines (if requires_escaping t then yaml_quote t else t)))).
  { apply in_flat_map. exists l. split; [exact Hl|]. rewrite Hx. left. reflexivity. }
  rewrite H in Hin2. destruct Hin2.
Qed.

Lemma item_ok prefix c : c <> Block [] -> exists g, item_lines prefix c = Ok g /\ g <> [].
Proof. intros H. destruct c as [s|[|x r]]; [eexists; split; [reflexivity|discriminate]|congruence|eexists; split; [reflexivity|discriminate]]. Qed.

Lemma entry_ok key text c : c <> Block [] -> exists g, entry_lines key text c = Ok g /\ g <> [].
Proof. intros H. destruct text; [apply item_ok; exact H|]. destruct c as [s|l]; [apply item_ok; exact H|]. exists (key :: l). split; [reflexivity|discriminate]. Qed.

Lemma keyed_ok {K A} (proj : val -> option K) (l : list (val * A)) : (forall k x, In (k, x) l -> proj k <> None) -> exists r, keyed proj l = Some r.
Proof.
  induction l as [|[k x] l IH]; intros H; [exists []; reflexivity|]. cbn [keyed]. specialize (H k x (or_introl eq_refl)) as Hk.
  destruct (IH (fun k' x' Hin => H k' x' (or_intror Hin))) as [r ->]. destruct (proj k) as [a|]; [|congruence]. eexists. reflexivity.
Qed.

Lemma sorted_ok {B} (f : val * val -> B) (l : list (val * val)) :
  (forall k x, In (k, x) l -> exists s, k = VStr s) \/ (forall k x, In (k, x) l -> exists z, k = VInt z) ->
  exists l', Permutation l l' /\ sorted_items (map (fun kx => (fst kx, f kx)) l) = Ok (map (fun kx => (fst kx, f kx)) l').
Proof.
  intros H. assert (Hok : exists items, sorted_items (map (fun kx => (fst kx, f kx)) l) = Ok items).
  { unfold sorted_items. destruct (keyed (fun k => match k with VStr s => Some s | _ => None end) (map (fun kx => (fst kx, f kx)) l)) eqn:Hk; [eexists; reflexivity|].
    destruct H as [H|H].
    - exfalso. destruct (keyed_ok (fun k => match k with VStr s => Some s | _ => None end) (map (fun kx => (fst kx, f kx)) l)) as [r Hr]; [|congruence].
      intros k x Hin. apply in_map_iff in Hin. destruct Hin as [[k' x'] [[= <- <-] Hin]]. destruct (H _ _ Hin) as [s ->]. discriminate.
    - destruct (keyed_ok (fun k => match k with VInt s => Some s | _ => None end) (map (fun kx => (fst kx, f kx)) l)) as [r ->]; [|eexists; reflexivity].
      intros k x Hin. apply in_map_iff in Hin. destruct Hin as [[k' x'] [[= <- <-] Hin]]. destruct (H _ _ Hin) as [s ->]. discriminate. }
  destruct Hok as [items Hok]. destruct (sorted_items_map _ _ _ Hok) as [l' [Hp ->]]. exists l'. split; [exact Hp|exact Hok].
Qed.

Lemma concat_some {A} (gs : list (list A)) : gs <> [] -> Forall (fun g => g <> []) gs -> concat gs <> [].
Proof. intros H Hf. destruct Hf as [|g gs Hg _]; [congruence|]. cbn [concat]. destruct g; [congruence|discriminate]. Qed.

Lemma written_list E wrap level l :
  (forall x, In x l -> exists c, yaml_value E wrap x (S level) = Ok c /\ c <> Block []) ->
  exists c, yaml_value E wrap (VList l) level = Ok c /\ c <> Block [].
Proof.
  intros Hl. rewrite yaml_list. destruct l as [|x0 l]; [eexists; split; [reflexivity|discriminate]|]. destruct (forallb simple_item (x0 :: l)) eqn:Hs.
  - rewrite forallb_forall in Hs. destruct (in_turn_ok (yaml_scalar E) (x0 :: l)) as [parts ->]; [|eexists; split; [reflexivity|discriminate]].
    intros x Hx. apply scalar_ok; specialize (Hs x Hx); destruct x; try discriminate Hs; try exact I; discriminate.
  - assert (Hi : forall x, In x (x0 :: l) -> exists g, item E wrap level x = Ok g /\ g <> []).
    { intros x Hx. destruct (Hl x Hx) as [c [Hc Hn]]. unfold item. rewrite Hc. cbn [bind]. apply item_ok. exact Hn. }
    destruct (in_turn_ok (item E wrap level) (x0 :: l)) as [gs Hg]; [intros x Hx; destruct (Hi x Hx) as [g [Hg _]]; exists g; exact Hg|].
    rewrite Hg. eexists. split; [reflexivity|]. intros H. injection H as H. apply in_turn_map in Hg. revert H. apply concat_some; [inversion Hg; discriminate|].
    apply Forall_forall. intros g Hin. clear -Hg Hi Hin. induction Hg as [|x g' xs gs Hx _ IH]; [destruct Hin|].
    destruct Hin as [<-|Hin]; [|apply IH; [intros y Hy; apply Hi; right; exact Hy|exact Hin]].
    destruct (Hi x (or_introl eq_refl)) as [g2 [H2 Hn]]. congruence.
Qed.

Lemma written_dict E wrap level o l :
  o = true \/ (forall k x, In (k, x) l -> exists s, k = VStr s) \/ (forall k x, In (k, x) l -> exists z, k = VInt z) ->
  (forall k x, In (k, x) l -> exists c, yaml_value E wrap x (S level) = Ok c /\ c <> Block []) ->
  exists c, yaml_value E wrap (VDict o l) level = Ok c /\ c <> Block [].
Proof.
  intros Hk Hl. rewrite yaml_dict. destruct l as [|kx0 l]; [eexists; split; [reflexivity|discriminate]|]. remember (kx0 :: l) as m eqn:Hm.
  assert (Hs : exists m', Permutation m m' /\ (if o then fun x => Ok x else sorted_items) (map (fun kx => (fst kx, entry E wrap level kx)) m)
                = Ok (map (fun kx => (fst kx, entry E wrap level kx)) m')).
  { destruct o; [exists m; split; reflexivity|]. apply sorted_ok. destruct Hk as [Hk|Hk]; [discriminate Hk|exact Hk]. }
  destruct Hs as [m' [Hp Hs]]. unfold structure_content. rewrite Hs. cbn [bind]. rewrite map_map. cbn [snd].
  assert (Hi : forall kx, In kx m' -> exists g, entry E wrap level kx = Ok g /\ g <> []).
  { intros [k x] Hx. apply Permutation_in with (1 := Permutation_sym Hp) in Hx. destruct (Hl k x Hx) as [c [Hc Hn]]. unfold entry. cbn [fst snd]. rewrite Hc. cbn [bind]. apply entry_ok. exact Hn. }
  destruct (in_turn_ok (fun kx => entry E wrap level kx) m') as [gs Hg]; [intros x Hx; destruct (Hi x Hx) as [g [Hg _]]; exists g; exact Hg|].
  rewrite Hg. eexists. split; [reflexivity|]. intros H. injection H as H. apply in_turn_map in Hg. revert H. apply concat_some.
  - intros ->. inversion Hg; subst. symmetry in Hp. apply Permutation_nil in Hp. discriminate Hp.
  - apply Forall_forall. intros g Hin. clear -Hg Hi Hin. induction Hg as [|x g' xs gs Hx _ IH]; [destruct Hin|].
    destruct Hin as [<-|Hin]; [|apply IH; [intros y Hy; apply Hi; right; exact Hy|exact Hin]].
    destruct (Hi x (or_introl eq_refl)) as [g2 [H2 Hn]]. congruence.
Qed.

Lemma fit_written E wrap v : wraps wrap -> yaml_fit v -> forall level, exists c, yaml_value E wrap v level = Ok c /\ c <> Block [].
Proof.
  intros Hw. induction v as [v IH] using val_ind'. intros Hf level.
  assert (Hd : forall l, as_dict v = Some l -> ((forall k x, In (k, x) l -> exists s, k = VStr s) \/ (forall k x, In (k, x) l -> exists z, k = VInt z)) ->
     (forall k x, In (k, x) l -> yaml_fit x) -> exists c, yaml_value E wrap v level = Ok c /\ c <> Block []).
  { intros l Hv Hk Hx.
    assert (Hsub : forall k x, In (k, x) l -> exists c, yaml_value E wrap x (S level) = Ok c /\ c <> Block []).
    { intros k x Hin. apply IH; [|apply (Hx k x Hin)]. destruct v; try discriminate Hv; injection Hv as ->; cbn [subvals]; apply in_flat_map; exists (k, x); (split; [exact Hin|right; left; reflexivity]). }
    destruct v; try discriminate Hv; injection Hv as ->; [|rewrite yaml_surr]; apply written_dict; try exact Hsub; right; exact Hk. }
  inversion Hf as [? Hl Hn|s Hs|l Hl|l Hl|l Hl|? l Hv Hk Hl|? l Hv Hk Hl]; subst.
  - destruct (scalar_ok E v Hl Hn) as [t Ht]. exists (Inline t). split; [|discriminate].
    destruct v; try contradiction; try (cbn [yaml_value]; rewrite Ht; reflexivity). exfalso. apply (Hn s). reflexivity.
  - eexists. split; [reflexivity|]. apply string_some; assumption.
  - apply written_list. intros x Hx. apply IH; [exact Hx|apply Hl; exact Hx].
  - rewrite yaml_tuple. apply written_list. intros x Hx. apply IH; [exact Hx|apply Hl; exact Hx].
  - apply written_dict; [left; reflexivity|]. intros k x Hx. apply IH; [|apply (Hl k x Hx)]. cbn [subvals]. apply in_flat_map. exists (k, x). split; [exact Hx|right; left; reflexivity].
  - apply (Hd l Hv); [left; exact Hk|exact Hl].
  - apply (Hd l Hv); [right; exact Hk|exact Hl].
Qed.

(** @prop C62 Every value of null, booleans, numbers, dates, datetimes, texts, lists, tuples and dicts can
    be written, if its dicts are ordered or have only text or only integer keys and no text consists of
    line breaks only. *)
Lemma yaml_writes :
  forall E wrap v, wraps wrap -> yaml_fit v -> exists t, yaml_serialize E wrap v = Ok t.
Proof.
  intros E wrap v Hw Hf. destruct (fit_written E wrap v Hw Hf 0%nat) as [c [Hc _]]. unfold yaml_serialize. rewrite Hc. eexists. reflexivity.
Qed.

(** @example
Example C62_writes_example :
  yaml_fit (VDict true [(VNone, VTuple [VStr $"a: b"; VDate {| d_year := 2020; d_month := 1; d_day := 2 |}]); (VStr $"b", VSurr 0%nat None None [(VInt 2, VNone); (VInt 1, VNone)])])
  /\ yaml_serialize env0 wrap62 (VDict true [(VNone, VTuple [VStr $"a: b"; VDate {| d_year := 2020; d_month := 1; d_day := 2 |}]); (VStr $"b", VSurr 0%nat None None [(VInt 2, VNone); (VInt 1, VNone)])])
     = Ok ($"?:" ++ [10%N] ++ $"  - 'a: b'" ++ [10%N] ++ $"  - 2020-01-02" ++ [10%N] ++ $"b:" ++ [10%N] ++ $"  1: null" ++ [10%N] ++ $"  2: null").
Proof.
  split; [|vm_compute; reflexivity]. apply fit_ordered. cbn [In]. intros k x [H|[H|[]]]; injection H as _ <-.
  - apply fit_tuple. cbn [In]. intros v [<-|[<-|[]]]; [apply fit_text; right; right; exists 97%N; split; [left; reflexivity|reflexivity]|apply fit_scalar; [exact I|discriminate]].
  - eapply fit_numbers; [reflexivity| |]; cbn [In]; intros k' x [H|[H|[]]]; injection H as <- <-; try (eexists; reflexivity); (apply fit_scalar; [exact I|discriminate]).
Qed.
@end *)

(** @prop C62 Nothing else is written: if a text comes out, the value has no part of another kind. *)
Lemma yaml_refuses :
  forall E wrap v t, yaml_serialize E wrap v = Ok t -> yaml_made v.
Proof.
  intros E wrap v t H. unfold yaml_serialize in H. destruct (yaml_value E wrap v 0) as [c|] eqn:Hc; [|discriminate H]. clear H. revert c Hc. generalize 0%nat.
  induction v as [v IH] using val_ind'. intros level c Hc.
  assert (Hlist : forall l, (forall x, In x l -> In x (subvals v)) -> yaml_value E wrap (VList l) level = Ok c -> forall x, In x l -> yaml_made x).
  { intros l Hl Hv x Hx. rewrite yaml_list in Hv. destruct l as [|x0 l]; [destruct Hx|]. destruct (forallb simple_item (x0 :: l)) eqn:Hs.
    - rewrite forallb_forall in Hs. specialize (Hs x Hx). apply made_leaf. destruct x; try discriminate Hs; exact I.
    - destruct (in_turn _) as [gs|e] eqn:Hg; [|discriminate Hv]. apply in_turn_map in Hg.
      assert (Hi : exists g, item E wrap level x = Ok g).
      { clear -Hg Hx. induction Hg as [|y g ys gs Hy _ IHg]; [destruct Hx|]. destruct Hx as [->|Hx]; [exists g; exact Hy|apply IHg; exact Hx]. }
      destruct Hi as [g Hi]. unfold item in Hi. destruct (yaml_value E wrap x (S level)) as [cx|] eqn:Hcx; [|discriminate Hi].
      apply (IH x (Hl x Hx) _ _ Hcx). }
  assert (Hdict : forall o l, (forall k x, In (k, x) l -> In x (subvals v)) -> yaml_value E wrap (VDict o l) level = Ok c -> forall k x, In (k, x) l -> yaml_made x).
  { intros o l Hl Hv k x Hx. rewrite yaml_dict in Hv. destruct l as [|kx0 l]; [destruct Hx|].
    destruct (structure_groups _ _ _ _ _ _ Hv) as [l' [gs [Hp [_ [_ Hg]]]]].
    assert (Hx' := Permutation_in _ Hp Hx).
    assert (Hi : exists g, entry E wrap level (k, x) = Ok g).
    { clear -Hg Hx'. induction Hg as [|y g ys gs Hy _ IHg]; [destruct Hx'|]. destruct Hx' as [->|Hx]; [exists g; exact Hy|apply IHg; exact Hx]. }
    destruct Hi as [g Hi]. unfold entry in Hi. cbn [fst snd] in Hi. destruct (yaml_value E wrap x (S level)) as [cx|] eqn:Hcx; [|discriminate Hi].
    apply (IH x (Hl k x Hx) _ _ Hcx). }
  assert (Hsub : forall l k x, In (k, x) l -> In x (flat_map (fun kv : val * val => [fst kv; snd kv]) l)).
  { intros l k x Hx. apply in_flat_map. exists (k, x). split; [exact Hx|right; left; reflexivity]. }
  destruct v; try (apply made_leaf; exact I); try discriminate Hc.
  - apply made_list. apply (Hlist l); [intros x Hx; exact Hx|exact Hc].
  - apply made_tuple. apply (Hlist l); [intros x Hx; exact Hx|exact Hc].
  - eapply made_dict; [reflexivity|]. apply (Hdict ordered l); [apply Hsub|exact Hc].
  - eapply made_dict; [reflexivity|]. apply (Hdict false l); [apply Hsub|exact Hc].
Qed.

(** @example
Example C62_refuses_example :
  yaml_serialize env0 wrap62 (VList [VStr $"a"; VDict false [(VStr $"k", VBytes [1%N])]]) = py ValueError
  /\ yaml_serialize env0 wrap62 (VList [VStr (repeat 13%N 101)]) = py IndexError.
Proof. split; vm_compute; reflexivity. Qed.
@end *)

(** ** Telling texts apart *)

Lemma app_sep_inj (c : N) p q r r' : ~ In c p -> ~ In c q -> p ++ c :: r = q ++ c :: r' -> p = q /\ r = r'.
Proof.
  revert q. induction p as [|x p IH]; intros q Hp Hq H; destruct q as [|y q]; cbn [app] in H.
  - injection H as ->. split; reflexivity.
  - injection H as -> _. exfalso. apply Hq. left. reflexivity.
  - injection H as -> _. exfalso. apply Hp. left. reflexivity.
  - injection H as -> H. destruct (IH q) as [-> ->]; [intros Hi; apply Hp; right; exact Hi|intros Hi; apply Hq; right; exact Hi|exact H|]. split; reflexivity.
Qed.

Lemma join_inj (c : N) sep l m : (forall p, In p l -> p <> [] /\ ~ In c p) -> (forall p, In p m -> p <> [] /\ ~ In c p) ->
  join (c :: sep) l = join (c :: sep) m -> l = m.
Proof.
  revert m. induction l as [|p l IH]; intros m Hl Hm H.
  - destruct m as [|q [|q' m]]; [reflexivity| |]; cbn [join] in H; destruct (Hm q (or_introl eq_refl)) as [Hn _]; destruct q; try congruence; discriminate H.
  - destruct (Hl p (or_introl eq_refl)) as [Hpn Hp]. destruct m as [|q m].
    + destruct p; [congruence|]. destruct l; discriminate H.
    + destruct (Hm q (or_introl eq_refl)) as [Hqn Hq].
      destruct l as [|p' l]; destruct m as [|q' m].
      * cbn [join] in H. congruence.
      * rewrite (join_cons _ q) in H by discriminate. cbn [join] in H. exfalso. apply Hp. rewrite H. apply in_or_app. right. left. reflexivity.
      * rewrite (join_cons _ p) in H by discriminate. cbn [join] in H. exfalso. apply Hq. rewrite <- H. apply in_or_app. right. left. reflexivity.
      * rewrite (join_cons _ p), (join_cons _ q) in H by discriminate. cbn [app] in H. apply app_sep_inj in H; [|exact Hp|exact Hq].
        destruct H as [-> H]. apply app_inv_head in H. f_equal. apply IH; [intros x Hx; apply Hl; right; exact Hx|intros x Hx; apply Hm; right; exact Hx|exact H].
Qed.

Definition shape (c : content) : option (str * list str) :=
  match c with Inline s => Some (s, []) | Block [] => None | Block (x :: r) => Some (lstrip is_space x, r) end.

Lemma lstrip_indents level c s : is_space c = false -> lstrip is_space (indents level ++ c :: s) = c :: s.
Proof. intros H. induction level as [|n IH]; [cbn [indents app lstrip]; rewrite H; reflexivity|]. exact IH. Qed.

(** The kinds of texts. *)
Definition tag (h : str) (r : list str) : nat :=
  match h with
  | [] => 0%nat
  | c :: h' =>
      if c =? 39 then 2%nat
      else if c =? 124 then 3%nat
      else if c =? 91 then 4%nat
      else if (c =? 45) && (match h' with 32 :: _ => true | _ => false end) then 5%nat
      else if c =? 123 then 6%nat
      else if holds $": " h || (match r with [] => false | _ => true end) then 7%nat
      else 1%nat
  end.

Definition is_quoted (s : str) : bool :=
  match s with [] => true | _ => (length s <=? 5)%nat && smem (map lower_ascii s) [$"null"; $"~"; $"true"; $"false"] || requires_escaping s end.

Definition expected (v : val) : nat :=
  match v with
  | VStr s => if existsb (N.eqb 10) s then 3%nat else if is_quoted s then 2%nat else 1%nat
  | VList l => if forallb simple_item l then 4%nat else 5%nat
  | VDict _ [] => 6%nat
  | VDict _ _ => 7%nat
  | _ => 1%nat
  end.

Lemma no_quote_double (s : str) : ~ In 39 s -> flat_map (fun c => if c =? 39 then [39; 39] else [c]) s = s.
Proof.
  induction s as [|c s IH]; intros H; [reflexivity|]. cbn [flat_map]. destruct (N.eqb_spec c 39) as [->|Hc]; [exfalso; apply H; left; reflexivity|].
  cbn [app]. rewrite IH; [reflexivity|]. intros Hi. apply H. right. exact Hi.
Qed.

Lemma lower_word s : smem (map lower_ascii s) [$"null"; $"~"; $"true"; $"false"] = true -> ~ In 39 s /\ ~ In 10 s.
Proof.
  intros H. apply smem_In in H. assert (Hc : forall c, In c s -> c <> 39 /\ c <> 10).
  { intros c Hc. assert (Hl := in_map lower_ascii _ _ Hc).
    assert (Hb : 97 <= lower_ascii c <= 126).
    { cbn [In] in H. destruct H as [H|[H|[H|[H|[]]]]]; rewrite <- H in Hl; cbn in Hl; repeat (destruct Hl as [<-|Hl]; [lia|]); destruct Hl. }
    unfold lower_ascii in Hb. destruct ((65 <=? c) && (c <=? 90)) eqn:Hr; lia. }
  split; intros Hi; destruct (Hc _ Hi); congruence.
Qed.

(** The text of a text that is told apart. *)
Lemma string_content wrap s level : In 10 s \/ (length s + 2 * level <= 100)%nat ->
  yaml_string wrap s level =
  if existsb (N.eqb 10) s then Block ($"|" :: map (fun line => match line with [] => [] | _ => indents level ++ line end) (split_on 10 s))
  else if is_quoted s then Inline (yaml_quote s) else Inline s.
Proof.
  intros Hs. unfold yaml_string. destruct s as [|c s]; [reflexivity|]. unfold is_quoted. set (t := c :: s) in *.
  destruct ((length t <=? 5)%nat && smem (map lower_ascii t) [$"null"; $"~"; $"true"; $"false"]) eqn:Hw; cbn [orb].
  - apply andb_prop in Hw. destruct Hw as [_ Hw]. apply lower_word in Hw. destruct Hw as [H39 H10].
    destruct (existsb (N.eqb 10) t) eqn:He.
    + apply existsb_exists in He. destruct He as [x [Hx Heq]]. apply N.eqb_eq in Heq. subst x. contradiction.
    + unfold yaml_quote. rewrite no_quote_double by exact H39. reflexivity.
  - destruct (existsb (N.eqb 10) t) eqn:He; [reflexivity|].
    destruct (Nat.leb_spec (length t + 2 * level) 100); [destruct (requires_escaping t); reflexivity|].
    destruct Hs as [Hs|Hs]; [|lia]. exfalso. assert (existsb (N.eqb 10) t = true) by (apply existsb_exists; exists 10; split; [exact Hs|reflexivity]). congruence.
Qed.

Lemma quote_inj s t : yaml_quote s = yaml_quote t -> s = t.
Proof.
  unfold yaml_quote. intros H. apply app_inv_head in H. apply app_inv_tail in H. revert t H.
  induction s as [|c s IH]; intros [|d t] H; [reflexivity| | |].
  - cbn [flat_map] in H. destruct (d =? 39); discriminate H.
  - cbn [flat_map] in H. destruct (c =? 39); discriminate H.
  - cbn [flat_map] in H. destruct (N.eqb_spec c 39) as [->|Hc]; destruct (N.eqb_spec d 39) as [->|Hd]; cbn [app] in H.
    + apply (f_equal (@tl N)) in H. apply (f_equal (@tl N)) in H. cbn [tl] in H. rewrite (IH t H). reflexivity.
    + apply (f_equal (hd 0)) in H. cbn [hd] in H. congruence.
    + apply (f_equal (hd 0)) in H. cbn [hd] in H. congruence.
    + assert (H1 := f_equal (hd 0) H). apply (f_equal (@tl N)) in H. cbn [tl hd] in H, H1. rewrite (IH t H), H1. reflexivity.
Qed.

Lemma block_inj level l m : map (fun line : str => match line with [] => [] | _ => indents level ++ line end) l
  = map (fun line => match line with [] => [] | _ => indents level ++ line end) m -> l = m.
Proof.
  revert m. induction l as [|x l IH]; intros [|y m] H; try discriminate H; [reflexivity|]. cbn [map] in H.
  assert (H1 := f_equal (hd []) H). apply (f_equal (@tl str)) in H. cbn [hd tl] in H, H1. rewrite (IH m H). f_equal.
  destruct x as [|a x], y as [|b y]; [reflexivity| | |apply app_inv_head in H1; exact H1]; exfalso; destruct level; discriminate H1.
Qed.

(** ** Kinds of the texts of all values *)

Lemma holds_app token a b : holds token b = true -> holds token (a ++ b) = true.
Proof. intros H. induction a as [|c a IH]; [exact H|]. cbn [app holds]. rewrite IH. apply orb_true_r. Qed.

Lemma starts_split token s : starts_with token s = true -> exists b, s = token ++ b.
Proof.
  revert s. induction token as [|c token IH]; intros s H; [exists s; reflexivity|].
  destruct s as [|d s]; [discriminate H|]. cbn in H. apply andb_prop in H. destruct H as [Hc H].
  apply N.eqb_eq in Hc. subst d. destruct (IH _ H) as [b ->]. exists b. reflexivity.
Qed.

Lemma holds_split token s : holds token s = true -> exists a b, s = a ++ token ++ b.
Proof.
  induction s as [|c s IH]; cbn [holds]; intros H; apply orb_prop in H; destruct H as [H|H].
  - apply starts_split in H. destruct H as [b ->]. exists [], b. reflexivity.
  - discriminate H.
  - apply starts_split in H. destruct H as [b ->]. exists [], b. reflexivity.
  - destruct (IH H) as [a [b ->]]. exists (c :: a), b. reflexivity.
Qed.

Lemma holds_no token c s : In c token -> ~ In c s -> holds token s = false.
Proof.
  intros Ht. induction s as [|d s IH]; intros Hs.
  - cbn [holds]. unfold starts_with. rewrite orb_false_r. destruct (str_eqb (firstn (length token) []) token) eqn:He; [|reflexivity].
    apply str_eqb_eq in He. rewrite firstn_nil in He. subst token. destruct Ht.
  - cbn [holds]. rewrite IH by (intros Hi; apply Hs; right; exact Hi). rewrite orb_false_r. unfold starts_with.
    destruct (str_eqb (firstn (length token) (d :: s)) token) eqn:He; [|reflexivity]. apply str_eqb_eq in He. exfalso. apply Hs.
    rewrite <- He in Ht. rewrite <- (firstn_skipn (length token) (d :: s)). apply in_or_app. left. exact Ht.
Qed.

Lemma tag_plain h : h <> [] -> (forall c, In c h -> c <> 58 /\ c <> 32 /\ c <> 39 /\ c <> 124 /\ c <> 91 /\ c <> 123) -> tag h [] = 1%nat.
Proof.
  intros Hn H. destruct h as [|c h]; [congruence|]. unfold tag. rewrite (holds_no _ 58); [|left; reflexivity|intros Hi; apply H in Hi; tauto].
  destruct (H c (or_introl eq_refl)) as [H1 [H2 [H3 [H4 [H5 H6]]]]]. apply N.eqb_neq in H3, H4, H5, H6. rewrite H3, H4, H5, H6.
  assert (Hm : match h with 32 :: _ => true | _ => false end = false).
  { destruct h as [|d h]; [reflexivity|]. destruct (H d (or_intror (or_introl eq_refl))) as [_ [Hd _]].
    destruct d as [|p]; [reflexivity|]. do 6 (destruct p as [p|p|]; try reflexivity). congruence. }
  rewrite Hm, andb_false_r. reflexivity.
Qed.

Lemma scalar_text_chars E v t : match v with VNone | VBool _ | VInt _ => True | _ => False end -> yaml_scalar E v = Ok t ->
  t <> [] /\ forall c, In c t -> c = 45 \/ 48 <= c <= 57 \/ 97 <= c <= 122.
Proof.
  intros Hv H. destruct v; try contradiction; cbn [yaml_scalar text_of] in H; [| |].
  - injection H as <-. split; [discriminate|]. cbn. intros c Hc. repeat (destruct Hc as [<-|Hc]; [lia|]). destruct Hc.
  - destruct b; injection H as <-; (split; [discriminate|]); cbn; intros c Hc; repeat (destruct Hc as [<-|Hc]; [lia|]); destruct Hc.
  - injection H as <-. split; [apply Z_text_nonempty|]. intros c Hc. destruct (Z_text_chars z c Hc); [left; assumption|right; left; assumption].
Qed.

Lemma key_tag k x r : yaml_key k -> r <> [] \/ (exists y, x = 32 :: y) -> tag (k ++ 58 :: x) r = 7%nat.
Proof.
  intros [Hc [c [k' [-> [Hi Hs]]]]] Hx. cbn [app]. unfold tag.
  assert (Hne : forall d, In d indicators -> (c =? d) = false) by (intros d Hd; apply N.eqb_neq; intros ->; contradiction).
  rewrite (Hne 39), (Hne 124), (Hne 91), (Hne 45), (Hne 123) by (cbn; tauto). cbn [andb].
  destruct r as [|r0 r]; [|rewrite orb_true_r; reflexivity]. destruct Hx as [Hx|[y ->]]; [congruence|].
  change (c :: k' ++ 58 :: 32 :: y) with ((c :: k') ++ 58 :: 32 :: y). rewrite holds_app; [reflexivity|reflexivity].
Qed.

Lemma quoted_tag s : tag (yaml_quote s) [] = 2%nat.
Proof. reflexivity. Qed.

Lemma bare_tag s : is_quoted s = false -> tag s [] = 1%nat.
Proof.
  unfold is_quoted. destruct s as [|c s]; [discriminate|]. intros H. apply orb_false_iff in H. destruct H as [_ H]. unfold requires_escaping in H.
  apply orb_false_iff in H. destruct H as [H _]. apply orb_false_iff in H. destruct H as [Hi Hh].
  assert (Hne : forall d, In d indicators -> (c =? d) = false).
  { intros d Hd. destruct (c =? d) eqn:He; [|reflexivity]. rewrite <- Hi. symmetry. apply existsb_exists. exists d. split; assumption. }
  unfold tag. rewrite (Hne 39), (Hne 124), (Hne 91), (Hne 45), (Hne 123) by (cbn; tauto). rewrite Hh. reflexivity.
Qed.

Lemma entry_shape E wrap level k x g : yaml_key k -> entry E wrap level (VStr k, x) = Ok g ->
  (forall c, yaml_value E wrap x (S level) = Ok c -> c <> Block []) ->
  exists t r, g = (indents level ++ k ++ 58 :: t) :: r /\ (r <> [] \/ exists y, t = 32 :: y).
Proof.
  intros Hk H Hn. unfold entry in H. cbn [fst snd text_of] in H. destruct (yaml_value E wrap x (S level)) as [c|]; [|discriminate H]. cbn [bind] in H.
  specialize (Hn c eq_refl).
  assert (Hi : item_lines (indents level ++ k ++ $":") c = Ok g -> exists t r, g = (indents level ++ k ++ 58 :: t) :: r /\ (r <> [] \/ exists y, t = 32 :: y)).
  { intros Hi. unfold item_lines in Hi. destruct c as [s|[|first others]]; [|discriminate Hi|]; injection Hi as <-.
    - exists ($" " ++ s), []. split; [rewrite <- !app_assoc; reflexivity|right; eexists; reflexivity].
    - exists ($" " ++ lstrip is_space first), others. split; [rewrite <- !app_assoc; reflexivity|right; eexists; reflexivity]. }
  unfold entry_lines in H. destruct x; try (apply Hi; exact H);
    (destruct c as [s'|l']; [apply Hi; exact H|]; injection H as <-; exists [], l'; (split; [reflexivity|left; intros ->; apply Hn; reflexivity])).
Qed.

Lemma tellable_written E wrap v : forall level, tellable level v -> exists c, yaml_value E wrap v level = Ok c /\ c <> Block [].
Proof.
  induction v as [v IH] using val_ind'. intros n H. inversion H as [| | |? s Hs Hz|? l Hl|? l Hd Hk Hl]; subst.
  - eexists; split; [reflexivity|discriminate].
  - destruct b; eexists; (split; [reflexivity|discriminate]).
  - eexists; split; [reflexivity|discriminate].
  - cbn [yaml_value]. rewrite string_content by exact Hs. destruct (existsb (N.eqb 10) s); [eexists; split; [reflexivity|discriminate]|].
    destruct (is_quoted s); eexists; (split; [reflexivity|discriminate]).
  - apply written_list. intros x Hx. apply (IH x Hx). apply Hl. exact Hx.
  - apply written_dict; [right; left; intros k x Hx; destruct (Hk k x Hx) as [s [-> _]]; exists s; reflexivity|].
    intros k x Hx. apply (IH x); [|apply (Hl k x Hx)]. cbn [subvals]. apply in_flat_map. exists (k, x). split; [exact Hx|right; left; reflexivity].
Qed.

Definition lines_of (c : content) : list str := match c with Inline s => [s] | Block l => l end.

(** The kind. *)
Lemma tagged E wrap v level c : tellable level v -> yaml_value E wrap v level = Ok c ->
  exists h r, shape c = Some (h, r) /\ tag h r = expected v /\ (level = O -> lines_of c = h :: r)
    /\ (match v with VStr _ => False | _ => True end -> forall l, c = Block l -> l = (indents level ++ h) :: r).
Proof.
  intros Ht H. inversion Ht as [| | |? s Hs Hz|? l Hl|? l Hd Hk Hl]; subst.
  - injection H as <-. eexists _, _. split; [reflexivity|split; [reflexivity|split; [reflexivity|discriminate]]].
  - destruct b; injection H as <-; eexists _, _; (split; [reflexivity|split; [reflexivity|split; [reflexivity|discriminate]]]).
  - injection H as <-. eexists _, _. split; [reflexivity|]. split; [|split; [reflexivity|discriminate]]. apply tag_plain; [apply Z_text_nonempty|].
    intros c Hc. apply Z_text_chars in Hc. cbn [text_of] in Hc. lia.
  - cbn [yaml_value] in H. rewrite string_content in H by exact Hs. cbn [expected]. destruct (existsb (N.eqb 10) s).
    + injection H as <-. eexists _, _. split; [reflexivity|]. split; [reflexivity|split; [reflexivity|intros []]].
    + destruct (is_quoted s) eqn:Hq; injection H as <-; eexists _, _; (split; [reflexivity|]); (split; [|split; [reflexivity|intros []]]); [apply quoted_tag|apply bare_tag; exact Hq].
  - rewrite yaml_list in H. cbn [expected]. destruct l as [|x l]; [injection H as <-; eexists _, _; split; [reflexivity|split; [reflexivity|split; [reflexivity|discriminate]]]|].
    destruct (forallb simple_item (x :: l)).
    + destruct (in_turn _); [|discriminate H]. injection H as <-. eexists _, _. split; [reflexivity|split; [reflexivity|split; [reflexivity|discriminate]]].
    + destruct (in_turn _) as [gs|e] eqn:Hg; [|discriminate H]. injection H as <-. apply in_turn_map in Hg.
      inversion Hg as [|? g ? gs' Hx _]; subst. unfold item in Hx. destruct (yaml_value E wrap x (S level)) as [cx|]; [|discriminate Hx]. cbn [bind] in Hx.
      assert (Hi : exists t r, g = (indents level ++ 45 :: 32 :: t) :: r).
      { unfold item_lines in Hx. destruct cx as [s'|[|first others]]; [|discriminate Hx|]; injection Hx as <-; eexists _, _; rewrite <- !app_assoc; reflexivity. }
      destruct Hi as [t [r ->]]. cbn [concat app shape lines_of]. rewrite lstrip_indents by reflexivity.
      eexists _, _. split; [reflexivity|]. split; [reflexivity|]. split; [intros ->; reflexivity|]. intros _ ? [= <-]. reflexivity.
  - rewrite yaml_dict in H. cbn [expected]. destruct l as [|kx l]; [injection H as <-; eexists _, _; split; [reflexivity|split; [reflexivity|split; [reflexivity|discriminate]]]|].
    destruct (structure_groups E wrap false _ level c H) as [l' [gs [Hp [_ [-> Hg]]]]].
    destruct Hg as [|[k x] g l' gs Hx _]; [symmetry in Hp; apply Permutation_nil in Hp; discriminate Hp|].
    assert (Hin : In (k, x) (kx :: l)) by (apply Permutation_in with (1 := Permutation_sym Hp); left; reflexivity).
    destruct (Hk _ _ Hin) as [s [-> Hs]].
    destruct (entry_shape E wrap level s x g Hs Hx) as [t [r [-> Hr]]].
    { intros cx Hcx. destruct (tellable_written E wrap x (S level) (Hl _ _ Hin)) as [cx' [Hcx' Hn]]. congruence. }
    assert (Hstrip : lstrip is_space (indents level ++ s ++ 58 :: t) = s ++ 58 :: t).
    { destruct Hs as [_ [c [s' [-> [_ Hsp]]]]]. apply lstrip_indents. exact Hsp. }
    cbn [concat app shape lines_of]. rewrite Hstrip. eexists _, _. split; [reflexivity|]. split; [|split; [intros ->; reflexivity|intros _ ? [= <-]; reflexivity]].
    apply key_tag; [exact Hs|]. destruct Hr as [Hr|Hr]; [left; destruct r; [congruence|discriminate]|right; exact Hr].
Qed.

(** ** No line breaks inside lines *)

Lemma indents_chars level c : In c (indents level) -> c = 32.
Proof. induction level as [|n IH]; [intros []|]. intros [<-|[<-|H]]; [reflexivity|reflexivity|apply IH; exact H]. Qed.

Lemma lstrip_In p (s : str) c : In c (lstrip p s) -> In c s.
Proof. induction s as [|d s IH]; [intros []|]. cbn [lstrip]. destruct (p d); [intros H; right; apply IH; exact H|intros H; exact H]. Qed.

Definition single (l : list str) : Prop := Forall (fun x => ~ In 10 x) l.

Lemma single_item prefix c g : item_lines prefix c = Ok g -> ~ In 10 prefix -> single (lines_of c) -> single g.
Proof.
  intros H Hp Hc. unfold item_lines in H. destruct c as [s|[|x r]]; [|discriminate H|]; injection H as <-; inversion Hc; subst; (constructor; [|assumption]);
    rewrite !in_app_iff; intros [Hi|[Hi|Hi]]; try contradiction.
  - discriminate Hi.
  - discriminate Hi.
  - apply lstrip_In in Hi. contradiction.
Qed.

Lemma single_concat gs : Forall single gs -> single (concat gs).
Proof. induction 1; [constructor|]. cbn [concat]. apply Forall_app. split; assumption. Qed.

Lemma quote_In s c : In c (yaml_quote s) -> c = 39 \/ In c s.
Proof.
  unfold yaml_quote. rewrite !in_app_iff. intros [[<-|[]]|[H|[<-|[]]]]; [left; reflexivity| |left; reflexivity].
  apply in_flat_map in H. destruct H as [x [Hx Hc]]. destruct (N.eqb_spec x 39); cbn [In] in Hc; [destruct Hc as [<-|[<-|[]]]; left; reflexivity|].
  destruct Hc as [<-|[]]. right. exact Hx.
Qed.

Lemma one_lines E wrap v : forall level c, tellable level v -> yaml_value E wrap v level = Ok c -> single (lines_of c).
Proof.
  induction v as [v IH] using val_ind'. intros level c Ht H.
  assert (Hscalar : forall t, yaml_scalar E v = Ok t -> match v with VNone | VBool _ | VInt _ => True | _ => False end -> single [t]).
  { intros t Hs Hv. constructor; [|constructor]. intros Hi. apply (scalar_text_chars E v t Hv Hs) in Hi. lia. }
  inversion Ht as [| | |? s Hs Hz|? l Hl|? l Hd Hk Hl]; subst.
  - injection H as <-. apply Hscalar; [reflexivity|exact I].
  - destruct b; injection H as <-; (apply Hscalar; [reflexivity|exact I]).
  - injection H as <-. apply Hscalar; [reflexivity|exact I].
  - cbn [yaml_value] in H. rewrite string_content in H by exact Hs. destruct (existsb (N.eqb 10) s) eqn:He.
    + injection H as <-. constructor; [intros [Hi|[]]; discriminate Hi|]. apply Forall_forall. intros x Hx. apply in_map_iff in Hx. destruct Hx as [y [<- Hy]].
      assert (Hp := split_on_pieces 10 s). rewrite Forall_forall in Hp. specialize (Hp y Hy). destruct y as [|y0 y]; [intros []|].
      rewrite in_app_iff. intros [Hi|Hi]; [apply indents_chars in Hi; discriminate Hi|contradiction].
    + assert (Hn : ~ In 10 s) by (intros Hi; assert (existsb (N.eqb 10) s = true) by (apply existsb_exists; exists 10; split; [exact Hi|reflexivity]); congruence).
      destruct (is_quoted s); injection H as <-; (constructor; [|constructor]); [|exact Hn]. intros Hi. apply quote_In in Hi. destruct Hi; [discriminate|contradiction].
  - rewrite yaml_list in H. destruct l as [|x0 l]; [injection H as <-; constructor; [intros [Hi|[Hi|[]]]; discriminate Hi|constructor]|].
    destruct (forallb simple_item (x0 :: l)) eqn:Hsim.
    + destruct (in_turn _) as [parts|e] eqn:Hp; [|discriminate H]. injection H as <-. apply in_turn_map in Hp. constructor; [|constructor].
      intros [Hi|Hi]; [discriminate Hi|]. apply in_app_or in Hi. destruct Hi as [Hi|[Hi|[]]]; [|discriminate Hi]. apply join_In in Hi. destruct Hi as [[Hi|[Hi|[]]]|[p [Hin Hi]]]; try discriminate Hi.
      rewrite forallb_forall in Hsim.
      assert (Hx : exists x, In x (x0 :: l) /\ yaml_scalar E x = Ok p).
      { clear -Hp Hin. induction Hp as [|x p' xs ps Hx _ IHp]; [destruct Hin|]. destruct Hin as [->|Hin]; [exists x; split; [left; reflexivity|exact Hx]|].
        destruct (IHp Hin) as [y [Hy1 Hy2]]. exists y. split; [right; exact Hy1|exact Hy2]. }
      destruct Hx as [x [Hx1 Hx2]]. assert (Hsx := Hsim x Hx1). specialize (Hl x Hx1).
      assert (Hk : match x with VNone | VBool _ | VInt _ => True | _ => False end) by (inversion Hl; subst; try exact I; discriminate Hsx).
      destruct (scalar_text_chars E x p Hk Hx2) as [_ Hc]. apply Hc in Hi. lia.
    + destruct (in_turn _) as [gs|e] eqn:Hg; [|discriminate H]. injection H as <-. apply in_turn_map in Hg. apply single_concat.
      assert (Hall : forall x, In x (x0 :: l) -> In x (subvals (VList (x0 :: l))) /\ tellable (S level) x) by (intros x Hx; split; [exact Hx|apply Hl; exact Hx]).
      revert Hg Hall. generalize (x0 :: l) at 1 2. clear -IH. intros m Hg. induction Hg as [|x g xs gs Hx _ IHg]; intros Hall; [constructor|].
      constructor; [|apply IHg; intros y Hy; apply Hall; right; exact Hy]. destruct (Hall x (or_introl eq_refl)) as [Hsub Htx].
      unfold item in Hx. destruct (yaml_value E wrap x (S level)) as [cx|] eqn:Hcx; [|discriminate Hx]. apply (single_item _ _ _ Hx); [|apply (IH x Hsub _ _ Htx Hcx)].
      rewrite in_app_iff. intros [Hi|[Hi|[]]]; [apply indents_chars in Hi|]; discriminate Hi.
  - rewrite yaml_dict in H. destruct l as [|kx l]; [injection H as <-; constructor; [intros [Hi|[Hi|[]]]; discriminate Hi|constructor]|].
    destruct (structure_groups E wrap false _ level c H) as [l' [gs [Hp [_ [-> Hg]]]]]. apply single_concat.
    assert (Hall : forall k x, In (k, x) l' -> In x (subvals (VDict false (kx :: l))) /\ tellable (S level) x /\ exists s, k = VStr s /\ yaml_key s).
    { intros k x Hx. apply Permutation_in with (1 := Permutation_sym Hp) in Hx. split; [|split; [apply (Hl k x Hx)|apply (Hk k x Hx)]].
      cbn [subvals]. apply in_flat_map. exists (k, x). split; [exact Hx|right; left; reflexivity]. }
    clear -IH Hg Hall. induction Hg as [|[k x] g xs gs Hx _ IHg]; [constructor|].
    constructor; [|apply IHg; intros k' y Hy; apply Hall; right; exact Hy]. destruct (Hall k x (or_introl eq_refl)) as [Hsub [Htx [s [-> [Hkc _]]]]].
    unfold entry in Hx. cbn [fst snd text_of] in Hx. destruct (yaml_value E wrap x (S level)) as [cx|] eqn:Hcx; [|discriminate Hx]. cbn [bind] in Hx.
    assert (Hkey : ~ In 10 (indents level ++ s ++ $":")).
    { rewrite !in_app_iff. intros [Hi|[Hi|[Hi|[]]]]; [apply indents_chars in Hi; discriminate Hi|apply Hkc in Hi; destruct Hi; congruence|discriminate Hi]. }
    assert (Hsx := IH x Hsub _ _ Htx Hcx). unfold entry_lines in Hx.
    destruct x; try (apply (single_item _ _ _ Hx Hkey Hsx));
      (destruct cx as [s'|m']; [apply (single_item _ _ _ Hx Hkey Hsx)|]; injection Hx as <-; constructor; [exact Hkey|exact Hsx]).
Qed.

(** ** The lines determine the blocks *)

Definition opens (level : nat) (line : str) : Prop := exists c r, line = indents level ++ c :: r /\ c <> 32.

Lemma indented_not_opens level line : indented (S level) line -> ~ opens level line.
Proof.
  intros [->|[r ->]] [c [r' [H Hc]]]; [destruct level; discriminate H|]. rewrite indents_S in H. apply app_inv_head in H. congruence.
Qed.

Definition one_block (level : nat) (g : list str) : Prop :=
  match g with [] => False | x :: r => opens level x /\ Forall (fun y => ~ opens level y) r end.

Lemma blocks_unique level gs hs : Forall (one_block level) gs -> Forall (one_block level) hs -> concat gs = concat hs -> gs = hs.
Proof.
  intros Hg. revert hs. induction Hg as [|g gs Hg1 Hg IH]; intros hs Hh H.
  - destruct Hh as [|h hs Hh1 _]; [reflexivity|]. destruct h; [destruct Hh1|discriminate H].
  - destruct g as [|x r]; [destruct Hg1|]. destruct Hh as [|h hs Hh1 Hh]; [discriminate H|]. destruct h as [|y r']; [destruct Hh1|].
    cbn [concat app] in H. injection H as -> H. destruct Hg1 as [_ Hr], Hh1 as [_ Hr'].
    assert (Heq : r = r' /\ concat gs = concat hs).
    { clear IH. revert r' Hr' H. induction Hr as [|a r Ha Hr IHr]; intros r' Hr' H.
      - destruct Hr' as [|b r' Hb _]; [split; [reflexivity|exact H]|]. exfalso. cbn [app] in H.
        destruct Hg as [|g gs Hg1 _]; [discriminate H|]. destruct g as [|z g]; [destruct Hg1|]. cbn [concat app] in H. injection H as -> _. destruct Hg1 as [Hz _]. contradiction.
      - destruct Hr' as [|b r' Hb Hr'].
        + exfalso. cbn [app] in H. destruct Hh as [|h hs Hh1 _]; [discriminate H|]. destruct h as [|z h]; [destruct Hh1|]. cbn [concat app] in H. injection H as <- _. destruct Hh1 as [Hz _]. contradiction.
        + cbn [app] in H. injection H as -> H. destruct (IHr r' Hr' H) as [-> H2]. split; [reflexivity|exact H2]. }
    destruct Heq as [-> H2]. f_equal. apply IH; assumption.
Qed.

Lemma opened_block level o g : opened level o g -> (exists c r, o = c :: r /\ c <> 32) -> one_block level g.
Proof.
  intros [t [r [-> Hr]]] [c [o' [-> Hc]]]. split; [exists c, (o' ++ t); split; [reflexivity|exact Hc]|].
  apply (Forall_impl _ (indented_not_opens level) Hr).
Qed.

Lemma ok_inj {A} (a b : A) : Ok a = Ok b -> a = b.
Proof. intros [= H]. exact H. Qed.

Lemma item_shape prefix c c' g : item_lines prefix c = Ok g -> item_lines prefix c' = Ok g -> shape c = shape c'.
Proof.
  intros H H'. unfold item_lines in *.
  assert (Hs : forall d, item_lines prefix d = Ok g -> shape d = match g with [] => None | x :: r => Some (skipn (length (prefix ++ $" ")) x, r) end).
  { intros d Hd. unfold item_lines in Hd. destruct d as [s|[|x r]]; [|discriminate Hd|]; apply ok_inj in Hd; rewrite <- Hd; cbn [shape]; rewrite app_assoc, skipn_app, skipn_all, Nat.sub_diag; reflexivity. }
  rewrite (Hs c H), (Hs c' H'). reflexivity.
Qed.

Lemma word_not_int z w : Z_text z = w -> (exists c r, w = c :: r /\ 97 <= c) -> False.
Proof. intros H [c [r [-> Hc]]]. assert (Hi : In c (Z_text z)) by (rewrite H; left; reflexivity). apply Z_text_chars in Hi. lia. Qed.

Lemma Z_text_inj a b : Z_text a = Z_text b -> a = b.
Proof.
  intros H. assert (Hp := parse_int_text (fun _ => None) _ _ (integer_str_is_text a)). rewrite H in Hp.
  rewrite (parse_int_text (fun _ => None) _ _ (integer_str_is_text b)) in Hp. congruence.
Qed.

Lemma simple_scalar_inj E v w t : match v with VNone | VBool _ | VInt _ => True | _ => False end -> match w with VNone | VBool _ | VInt _ => True | _ => False end ->
  yaml_scalar E v = Ok t -> yaml_scalar E w = Ok t -> v = w.
Proof.
  assert (Hw1 : forall z, ~ Z_text z = $"null") by (intros z H; apply (word_not_int z _ H); eexists _, _; split; [reflexivity|cbn; lia]).
  assert (Hw2 : forall z, ~ Z_text z = $"true") by (intros z H; apply (word_not_int z _ H); eexists _, _; split; [reflexivity|cbn; lia]).
  assert (Hw3 : forall z, ~ Z_text z = $"false") by (intros z H; apply (word_not_int z _ H); eexists _, _; split; [reflexivity|cbn; lia]).
  intros Hv Hw H1 H2. rewrite <- H2 in H1. clear H2 t.
  destruct v; try contradiction; destruct w; try contradiction; cbn [yaml_scalar text_of] in H1;
    repeat match goal with b : bool |- _ => destruct b end; try reflexivity; try discriminate H1; apply ok_inj in H1;
    try (exfalso; solve [apply (Hw1 _ H1)|apply (Hw2 _ H1)|apply (Hw3 _ H1)|symmetry in H1; solve [apply (Hw1 _ H1)|apply (Hw2 _ H1)|apply (Hw3 _ H1)]]).
  f_equal. apply Z_text_inj. exact H1.
Qed.

(** A text that is not quoted is no scalar. *)
Lemma bare_not_scalar E v s : match v with VNone | VBool _ | VInt _ => True | _ => False end -> is_quoted s = false -> (forall z, s <> Z_text z) ->
  yaml_scalar E v <> Ok s.
Proof.
  intros Hv Hq Hz H. destruct v; try contradiction; cbn [yaml_scalar text_of] in H.
  - injection H as <-. discriminate Hq.
  - destruct b; injection H as <-; discriminate Hq.
  - apply ok_inj in H. apply (Hz z). symmetry. exact H.
Qed.

Lemma list_groups E wrap level l c : forallb simple_item l = false -> yaml_value E wrap (VList l) level = Ok c ->
  exists gs, c = Block (concat gs) /\ Forall2 (fun x g => item E wrap level x = Ok g) l gs.
Proof.
  intros Hs H. rewrite yaml_list in H. destruct l as [|x l]; [discriminate Hs|]. rewrite Hs in H.
  destruct (in_turn _) as [gs|e] eqn:Hg; [|discriminate H]. injection H as <-. exists gs. split; [reflexivity|apply in_turn_map; exact Hg].
Qed.

Lemma Forall2_In_r {A B} (P : A -> B -> Prop) l m : Forall2 P l m -> forall b, In b m -> exists a, In a l /\ P a b.
Proof.
  induction 1 as [|x y l m Hxy _ IH]; intros b Hb; [destruct Hb|]. destruct Hb as [<-|Hb]; [exists x; split; [left; reflexivity|exact Hxy]|].
  destruct (IH b Hb) as [a [Ha Hp]]. exists a. split; [right; exact Ha|exact Hp].
Qed.

Lemma shape_block a b : shape (Block a) = shape (Block b) -> a <> [] -> (exists i x, a = (indents i ++ x) :: tl a /\ (exists c r, x = c :: r /\ is_space c = false)
    /\ exists y, b = (indents i ++ y) :: tl b /\ (exists c r, y = c :: r /\ is_space c = false)) -> a = b.
Proof.
  intros H Hn [i [x [Ha [[c [r [-> Hc]]] [y [Hb [c' [r' [-> Hc']]]]]]]]]. rewrite Ha, Hb in H |- *. cbn [shape] in H. rewrite !lstrip_indents in H by assumption. congruence.
Qed.

Lemma entry_inj level k k' x x' c c' g : yaml_key k -> yaml_key k' ->
  entry_lines (indents level ++ k ++ $":") (match x with VStr _ => true | _ => false end) c = Ok g ->
  entry_lines (indents level ++ k' ++ $":") (match x' with VStr _ => true | _ => false end) c' = Ok g ->
  k = k' /\ shape c = shape c'.
Proof.
  intros Hk Hk' H H'.
  assert (Hform : forall k x c, entry_lines (indents level ++ k ++ $":") (match x with VStr _ => true | _ => false end) c = Ok g ->
    (exists l, c = Block l /\ g = (indents level ++ k ++ 58 :: []) :: l)
    \/ (exists h r, shape c = Some (h, r) /\ g = (indents level ++ k ++ 58 :: 32 :: h) :: r)).
  { clear. intros k x c H.
    assert (Hi : item_lines (indents level ++ k ++ $":") c = Ok g -> exists h r, shape c = Some (h, r) /\ g = (indents level ++ k ++ 58 :: 32 :: h) :: r).
    { intros Hi. unfold item_lines in Hi. destruct c as [s|[|a r]]; [|discriminate Hi|]; apply ok_inj in Hi; subst g.
      - exists s, []. split; [reflexivity|]. rewrite <- !app_assoc. reflexivity.
      - exists (lstrip is_space a), r. split; [reflexivity|]. rewrite <- !app_assoc. reflexivity. }
    unfold entry_lines in H. destruct x; try (right; apply Hi; exact H);
      (destruct c as [s'|l']; [right; apply Hi; exact H|]; apply ok_inj in H; left; exists l'; split; [reflexivity|symmetry; exact H]). }
  assert (Hno : forall k, yaml_key k -> ~ In 58 k) by (intros k0 [H0 _] Hi; apply H0 in Hi; destruct Hi; congruence).
  destruct (Hform k x c H) as [[l [-> Hg]]|[h [r [Hsh Hg]]]]; destruct (Hform k' x' c' H') as [[l' [-> Hg']]|[h' [r' [Hsh' Hg']]]];
    rewrite Hg in Hg'; assert (H1 := f_equal (hd []) Hg'); assert (H2 := f_equal (@tl str) Hg'); cbn [hd tl] in H1, H2;
    apply app_inv_head in H1; apply app_sep_inj in H1; try (apply Hno; assumption); destruct H1 as [-> H1]; try discriminate H1.
  - subst l'. split; reflexivity.
  - split; [reflexivity|]. apply (f_equal (@tl N)) in H1. cbn [tl] in H1. congruence.
Qed.

Lemma tellable_dict_entries E wrap level l c : tellable level (VDict false l) -> l <> [] -> yaml_value E wrap (VDict false l) level = Ok c ->
  exists l' gs, Permutation l l' /\ c = Block (concat gs) /\ Forall2 (fun kx g => entry E wrap level kx = Ok g) l' gs.
Proof.
  intros Ht Hn H. rewrite yaml_dict in H. destruct l as [|kx l]; [congruence|].
  destruct (structure_groups E wrap false _ level c H) as [l' [gs [Hp [_ [Hc Hg]]]]]. exists l', gs. split; [exact Hp|]. split; [exact Hc|exact Hg].
Qed.

Lemma simple_parts E wrap l level c : (forall x, In x l -> tellable (S level) x) -> forallb simple_item l = true -> yaml_value E wrap (VList l) level = Ok c ->
  exists parts, c = Inline ($"[" ++ join $", " parts ++ $"]") /\ Forall2 (fun x p => yaml_scalar E x = Ok p) l parts
    /\ forall x, In x l -> match x with VNone | VBool _ | VInt _ => True | _ => False end.
Proof.
  intros Ht Hs H.
  assert (Hk : forall x, In x l -> match x with VNone | VBool _ | VInt _ => True | _ => False end).
  { intros x Hx. rewrite forallb_forall in Hs. specialize (Hs x Hx). specialize (Ht x Hx). inversion Ht; subst; try exact I; discriminate Hs. }
  rewrite yaml_list in H. destruct l as [|x l]; [exists []; injection H as <-; split; [reflexivity|split; [constructor|exact Hk]]|]. rewrite Hs in H.
  destruct (in_turn _) as [parts|e] eqn:Hp; [|discriminate H]. apply ok_inj in H. exists parts. split; [symmetry; exact H|]. split; [apply in_turn_map; exact Hp|exact Hk].
Qed.

Lemma told E wrap v : wraps wrap -> forall level w c c', tellable level v -> tellable level w ->
  yaml_value E wrap v level = Ok c -> yaml_value E wrap w level = Ok c' -> shape c = shape c' -> reordered v w.
Proof.
  intros Hwr. induction v as [v IH] using val_ind'. intros level w c c' Hv Hw Hc Hc' Hsh.
  destruct (tagged E wrap v level c Hv Hc) as [h [r [Hs1 [Ht1 [_ Hb1]]]]]. destruct (tagged E wrap w level c' Hw Hc') as [h' [r' [Hs2 [Ht2 [_ Hb2]]]]].
  rewrite Hsh, Hs2 in Hs1. injection Hs1 as -> ->. rewrite Ht1 in Ht2. clear Ht1.
  assert (Hscalar : match v with VNone | VBool _ | VInt _ => True | _ => False end -> match w with VNone | VBool _ | VInt _ => True | _ => False end -> reordered v w).
  { intros Kv Kw. destruct (yaml_scalar E v) as [t|] eqn:Et; [|destruct v; try contradiction; try destruct b; discriminate Et].
    destruct (yaml_scalar E w) as [t'|] eqn:Et'; [|destruct w; try contradiction; try destruct b; discriminate Et'].
    assert (Hcv : c = Inline t) by (destruct v; try contradiction; cbn [yaml_value] in Hc; rewrite Et in Hc; injection Hc as <-; reflexivity).
    assert (Hcw : c' = Inline t') by (destruct w; try contradiction; cbn [yaml_value] in Hc'; rewrite Et' in Hc'; injection Hc' as <-; reflexivity).
    rewrite Hcv, Hcw in Hsh. injection Hsh as ->. rewrite (simple_scalar_inj E v w t' Kv Kw Et Et'). apply reordered_scalar. destruct w; try contradiction; exact I. }
  assert (Hmixed : forall v w s c c', match v with VNone | VBool _ | VInt _ => True | _ => False end -> tellable level (VStr s) -> existsb (N.eqb 10) s = false -> is_quoted s = false -> w = VStr s ->
     yaml_value E wrap v level = Ok c -> yaml_value E wrap w level = Ok c' -> shape c = shape c' -> False).
  { clear. intros v w s c c' Kv Ks H10 Hq -> Hc Hc' Hsh. inversion Ks as [| | |? ? Hlen Hz| |]; subst. cbn [yaml_value] in Hc'. rewrite string_content, H10, Hq in Hc' by exact Hlen. injection Hc' as <-.
    destruct (yaml_scalar E v) as [t|] eqn:Et; [|destruct v; try contradiction; try destruct b; discriminate Et].
    assert (Hcv : c = Inline t) by (destruct v; try contradiction; cbn [yaml_value] in Hc; rewrite Et in Hc; injection Hc as <-; reflexivity).
    rewrite Hcv in Hsh. injection Hsh as ->. apply (bare_not_scalar E v s Kv Hq Hz). exact Et. }
  inversion Hv as [| | |? s Hs Hz|? l Hl|? l Hd Hk Hl]; subst.
  1,2,3: (inversion Hw as [| | |? s' Hs' Hz'|? l' Hl'|? l' Hd' Hk' Hl']; subst; try (apply Hscalar; exact I); exfalso; cbn [expected] in Ht2;
     [ destruct (existsb (N.eqb 10) s') eqn:E10; [discriminate Ht2|]; destruct (is_quoted s') eqn:Eq; [discriminate Ht2|];
       refine (Hmixed _ _ s' c c' _ Hw E10 Eq eq_refl Hc Hc' Hsh); exact I
     | destruct (forallb simple_item l'); discriminate Ht2
     | destruct l'; discriminate Ht2 ]).
  - inversion Hw as [| | |? s' Hs' Hz'|? l' Hl'|? l' Hd' Hk' Hl']; subst.
    1,2,3: (exfalso; cbn [expected] in Ht2; destruct (existsb (N.eqb 10) s) eqn:E10; [discriminate Ht2|]; destruct (is_quoted s) eqn:Eq; [discriminate Ht2|];
       refine (Hmixed _ _ s c' c _ Hv E10 Eq eq_refl Hc' Hc (eq_sym Hsh)); exact I).
    2: { exfalso. cbn [expected] in Ht2. destruct (existsb (N.eqb 10) s), (is_quoted s), (forallb simple_item l'); discriminate Ht2. }
    2: { exfalso. cbn [expected] in Ht2. destruct (existsb (N.eqb 10) s), (is_quoted s), l'; discriminate Ht2. }
    cbn [yaml_value] in Hc, Hc'. rewrite string_content in Hc by exact Hs. rewrite string_content in Hc' by exact Hs'. cbn [expected] in Ht2.
    assert (Heq : s = s'); [|subst s'; apply reordered_scalar; exact I].
    destruct (existsb (N.eqb 10) s), (existsb (N.eqb 10) s');
      [|destruct (is_quoted s'); discriminate Ht2|destruct (is_quoted s); discriminate Ht2|].
    + apply ok_inj in Hc, Hc'. subst c c'. cbn [shape] in Hsh. apply (f_equal (fun o => match o with Some (_, r) => r | None => [] end)) in Hsh. cbv beta iota in Hsh.
      apply block_inj in Hsh. rewrite <- (join_split 10 s), Hsh. apply join_split.
    + destruct (is_quoted s), (is_quoted s'); try discriminate Ht2; apply ok_inj in Hc, Hc'; subst c c'; cbn [shape] in Hsh;
        apply (f_equal (fun o => match o with Some (a, _) => a | None => [] end)) in Hsh; cbv beta iota in Hsh; [apply quote_inj; exact Hsh|exact Hsh].
  - inversion Hw as [| | |? s' Hs' Hz'|? l' Hl'|? l' Hd' Hk' Hl']; subst.
    1,2,3: (exfalso; cbn [expected] in Ht2; destruct (forallb simple_item l); discriminate Ht2).
    1: { exfalso. cbn [expected] in Ht2. destruct (existsb (N.eqb 10) s'), (is_quoted s'), (forallb simple_item l); discriminate Ht2. }
    2: { exfalso. cbn [expected] in Ht2. destruct l', (forallb simple_item l); discriminate Ht2. }
    cbn [expected] in Ht2. apply reordered_list. destruct (forallb simple_item l) eqn:Hsl, (forallb simple_item l') eqn:Hsl'; try discriminate Ht2.
    + destruct (simple_parts E wrap l level c Hl Hsl Hc) as [ps [-> [Hp Hk]]]. destruct (simple_parts E wrap l' level c' Hl' Hsl' Hc') as [ps' [-> [Hp' Hk']]].
      apply (f_equal (fun o => match o with Some (a, _) => a | None => [] end)) in Hsh. cbn [shape] in Hsh. cbv beta iota in Hsh. apply app_inv_head in Hsh. apply app_inv_tail in Hsh.
      assert (Hno : forall l ps, Forall2 (fun x p => yaml_scalar E x = Ok p) l ps -> (forall x, In x l -> match x with VNone | VBool _ | VInt _ => True | _ => False end) ->
                 forall p, In p ps -> p <> [] /\ ~ In 44 p).
      { clear. intros l ps Hf Hk p Hp. destruct (Forall2_In_r _ _ _ Hf p Hp) as [x [Hx Hxp]]. destruct (scalar_text_chars E x p (Hk x Hx) Hxp) as [Hn Hc].
        split; [exact Hn|]. intros Hi. apply Hc in Hi. lia. }
      apply (join_inj 44 [32]) in Hsh; [|apply (Hno l ps Hp Hk)|apply (Hno l' ps' Hp' Hk')]. subst ps'. clear -Hp Hp' Hk Hk'.
      revert l' Hp' Hk'. induction Hp as [|x p l ps Hx Hp IHp]; intros l' Hp' Hk'; inversion Hp' as [|x' ? l'' ? Hx' Hp'']; subst; [constructor|].
      constructor; [|apply IHp; [intros y Hy; apply Hk; right; exact Hy|exact Hp''|intros y Hy; apply Hk'; right; exact Hy]].
      assert (K := Hk x (or_introl eq_refl)). rewrite (simple_scalar_inj E x x' p K (Hk' x' (or_introl eq_refl)) Hx Hx').
      apply reordered_scalar. assert (K' := Hk' x' (or_introl eq_refl)). destruct x'; try contradiction; exact I.
    + destruct (list_groups E wrap level l c Hsl Hc) as [gs [-> Hg]]. destruct (list_groups E wrap level l' c' Hsl' Hc') as [gs' [-> Hg']].
      assert (Heq : concat gs = concat gs') by (rewrite (Hb1 I _ eq_refl), (Hb2 I _ eq_refl); reflexivity).
      assert (Hone : forall l gs, Forall2 (fun x g => item E wrap level x = Ok g) l gs -> Forall (one_block level) gs).
      { clear -Hwr. intros l gs Hg. induction Hg as [|y g ys gs Hy _ IHg]; [constructor|]. constructor; [|exact IHg].
        unfold item in Hy. destruct (yaml_value E wrap y (S level)) as [cy|] eqn:Hcy; [|discriminate Hy]. apply (opened_block level ($"-" ++ $" ")).
        - apply (item_opened _ _ _ _ Hy). apply (laid_out E wrap y Hwr _ _ Hcy).
        - exists 45, [32]. split; [reflexivity|discriminate]. }
      apply (blocks_unique level) in Heq; [|apply (Hone l gs Hg)|apply (Hone l' gs' Hg')]. subst gs'.
      assert (IH' : forall x, In x l -> forall level w c c', tellable level x -> tellable level w -> yaml_value E wrap x level = Ok c -> yaml_value E wrap w level = Ok c' -> shape c = shape c' -> reordered x w) by exact IH.
      clear -IH' Hg Hg' Hl Hl'. revert l' Hg' Hl'. induction Hg as [|x g l gs Hx Hg IHg]; intros l' Hg' Hl'; inversion Hg' as [|x' ? l'' ? Hx' Hg'']; subst; [constructor|].
      constructor; [|apply IHg; [intros y Hy; apply Hl; right; exact Hy|intros y Hy; apply IH'; right; exact Hy|exact Hg''|intros y Hy; apply Hl'; right; exact Hy]].
      unfold item in Hx, Hx'. destruct (yaml_value E wrap x (S level)) as [cx|] eqn:Hcx; [|discriminate Hx]. destruct (yaml_value E wrap x' (S level)) as [cx'|] eqn:Hcx'; [|discriminate Hx'].
      cbn [bind] in Hx, Hx'. apply (IH' x (or_introl eq_refl) (S level) x' cx cx'); [apply Hl; left; reflexivity|apply Hl'; left; reflexivity|exact Hcx|exact Hcx'|apply (item_shape _ _ _ _ Hx Hx')].
  - inversion Hw as [| | |? s' Hs' Hz'|? l' Hl'|? l' Hd' Hk' Hl']; subst.
    1,2,3: (exfalso; cbn [expected] in Ht2; destruct l; discriminate Ht2).
    1: { exfalso. cbn [expected] in Ht2. destruct (existsb (N.eqb 10) s'), (is_quoted s'), l; discriminate Ht2. }
    1: { exfalso. cbn [expected] in Ht2. destruct l, (forallb simple_item l'); discriminate Ht2. }
    destruct l as [|kx l]; destruct l' as [|kx' l']; try discriminate Ht2; [apply (reordered_dict false [] [] []); constructor|].
    destruct (tellable_dict_entries E wrap level (kx :: l) c Hv ltac:(discriminate) Hc) as [m [gs [Hp [-> Hg]]]].
    destruct (tellable_dict_entries E wrap level (kx' :: l') c' Hw ltac:(discriminate) Hc') as [m' [gs' [Hp' [-> Hg']]]].
    assert (Heq : concat gs = concat gs') by (rewrite (Hb1 I _ eq_refl), (Hb2 I _ eq_refl); reflexivity).
    assert (Hone : forall l m gs, Permutation l m -> (forall k v, In (k, v) l -> exists s, k = VStr s /\ yaml_key s) ->
         Forall2 (fun x g => entry E wrap level x = Ok g) m gs -> Forall (one_block level) gs).
    { clear -Hwr. intros l m gs Hp Hk Hg.
      assert (Hk2 : forall k v, In (k, v) m -> exists s, k = VStr s /\ yaml_key s) by (intros k v Hi; apply (Hk k v), Permutation_in with (1 := Permutation_sym Hp), Hi).
      clear Hp Hk. induction Hg as [|[k y] g ys gs Hy _ IHg]; [constructor|]. constructor; [|apply IHg; intros k' v' Hi; apply (Hk2 k' v'); right; exact Hi].
      destruct (Hk2 k y (or_introl eq_refl)) as [s [-> Hs]].
      apply (opened_block level (text_of E (fst (VStr s, y)) ++ $":")).
      - apply (entry_opened E wrap level (VStr s, y) g); [|exact Hy]. intros cy Hcy. apply (laid_out E wrap y Hwr _ _ Hcy).
      - cbn [fst text_of]. destruct Hs as [_ [a [s' [-> [_ Hsp]]]]]. exists a, (s' ++ $":"). split; [reflexivity|]. intros ->. discriminate Hsp. }
    apply (blocks_unique level) in Heq; [|apply (Hone _ _ _ Hp Hk Hg)|apply (Hone _ _ _ Hp' Hk' Hg')]. subst gs'.
    assert (HF : Forall2 (fun kv kw => fst kw = fst kv /\ reordered (snd kv) (snd kw)) m m').
    { assert (A1 : forall k x, In (k, x) m -> In x (subvals (VDict false (kx :: l))) /\ tellable (S level) x /\ exists s, k = VStr s /\ yaml_key s).
      { intros k x Hx. apply Permutation_in with (1 := Permutation_sym Hp) in Hx. split; [|split; [apply (Hl k x Hx)|apply (Hk k x Hx)]].
        cbn [subvals]. apply in_flat_map. exists (k, x). split; [exact Hx|right; left; reflexivity]. }
      assert (A2 : forall k x, In (k, x) m' -> tellable (S level) x /\ exists s, k = VStr s /\ yaml_key s).
      { intros k x Hx. apply Permutation_in with (1 := Permutation_sym Hp') in Hx. split; [apply (Hl' k x Hx)|apply (Hk' k x Hx)]. }
      clear -IH Hg Hg' A1 A2. revert m' Hg' A2. induction Hg as [|[k x] g m gs Hx Hg IHg]; intros m' Hg' A2; inversion Hg' as [|[k' x'] ? m'' ? Hx' Hg'']; subst; [constructor|].
      constructor; [|apply IHg; [intros k0 y Hy; apply A1; right; exact Hy|exact Hg''|intros k0 y Hy; apply A2; right; exact Hy]].
      destruct (A1 k x (or_introl eq_refl)) as [Hsub [Htx [s [-> Hks]]]]. destruct (A2 k' x' (or_introl eq_refl)) as [Htx' [s' [-> Hks']]].
      unfold entry in Hx, Hx'. cbn [fst snd text_of] in *. destruct (yaml_value E wrap x (S level)) as [cx|] eqn:Hcx; [|discriminate Hx].
      destruct (yaml_value E wrap x' (S level)) as [cx'|] eqn:Hcx'; [|discriminate Hx']. cbn [bind] in Hx, Hx'.
      destruct (entry_inj level s s' x x' cx cx' g Hks Hks' Hx Hx') as [-> Hshape]. split; [reflexivity|].
      apply (IH x Hsub (S level) x' cx cx'); assumption. }
    assert (HF' : Forall2 (fun kw kv => fst kw = fst kv /\ reordered (snd kv) (snd kw)) m' m) by (clear -HF; induction HF; constructor; assumption).
    destruct (Permutation_Forall2 (Permutation_sym Hp') HF') as [m2 [Hpm HF2]].
    apply (reordered_dict false (kx :: l) m2 (kx' :: l')); [transitivity m; assumption|]. clear -HF2. induction HF2; constructor; assumption.
Qed.

(** @prop C62 The texts of two values told apart are different: nested lists and plain dicts with texts as
    keys, of null, booleans, integers and texts that have several lines or are short enough for one line
    and are not the digits of an integer. *)
Lemma yaml_injective :
  forall E wrap v w,
    wraps wrap -> tellable 0 v -> tellable 0 w ->
    yaml_serialize E wrap v = yaml_serialize E wrap w -> reordered v w.
Proof.
  intros E wrap v w Hwr Hv Hw H. unfold yaml_serialize in H.
  destruct (tellable_written E wrap v 0 Hv) as [c [Hc _]]. destruct (tellable_written E wrap w 0 Hw) as [c' [Hc' _]].
  rewrite Hc, Hc' in H. cbn [bind] in H. apply ok_inj in H.
  assert (Hj : forall c, match c with Inline s => s | Block lines => join [10] lines end = join [10] (lines_of c)) by (intros []; reflexivity).
  rewrite !Hj in H. assert (H1 := one_lines E wrap v 0 c Hv Hc). assert (H2 := one_lines E wrap w 0 c' Hw Hc').
  destruct (tagged E wrap v 0 c Hv Hc) as [h [r [Hs1 [_ [Hl1 _]]]]]. destruct (tagged E wrap w 0 c' Hw Hc') as [h' [r' [Hs2 [_ [Hl2 _]]]]].
  specialize (Hl1 eq_refl). specialize (Hl2 eq_refl).
  assert (Heq : lines_of c = lines_of c').
  { rewrite <- (split_join 10 (lines_of c)), <- (split_join 10 (lines_of c')), H; [reflexivity| | | |]; try assumption; rewrite ?Hl1, ?Hl2; discriminate. }
  apply (told E wrap v Hwr 0 w c c' Hv Hw Hc Hc'). rewrite Hs1, Hs2. congruence.
Qed.

(** @example
Definition told62 (m : str) : val := VDict false [(VStr $"a", VList [VStr m; VNone]); (VStr $"b", VStr $"null")].
Example C62_injective_example :
  tellable 0 (told62 $"x: y") /\ tellable 0 (told62 ($"1" ++ [10%N]))
  /\ yaml_serialize env0 wrap62 (told62 $"x: y") = Ok ($"a:" ++ [10%N] ++ $"  - 'x: y'" ++ [10%N] ++ $"  - null" ++ [10%N] ++ $"b: 'null'").
Proof.
  assert (H : forall m, In 10%N m \/ (length m <= 90)%nat -> (forall z, m <> Z_text z) -> tellable 0 (told62 m)).
  { intros m Hm Hz. apply tell_dict.
    - repeat (constructor; [cbn; intuition discriminate|]). constructor.
    - cbn [In]. intros k v [H|[H|[]]]; injection H as <- _; eexists; (split; [reflexivity|]); (split; [cbn; intros c [<-|[]]; split; discriminate|]);
        eexists _, _; (split; [reflexivity|split; [cbn; intuition discriminate|reflexivity]]).
    - cbn [In]. intros k v [H|[H|[]]]; injection H as _ <-.
      + apply tell_list. cbn [In]. intros v [<-|[<-|[]]]; [|constructor]. apply tell_text; [destruct Hm as [Hm|Hm]; [left; exact Hm|right; lia]|exact Hz].
      + apply tell_text; [right; cbn; lia|]. intros z Hz'. assert (Hi : In 110%N (Z_text z)) by (rewrite <- Hz'; left; reflexivity).
        apply StProofs.Z_text_chars in Hi. lia. }
  split; [|split; [|vm_compute; reflexivity]]; apply H.
  - right. cbn. lia.
  - intros z Hz. assert (Hi : In 120%N (Z_text z)) by (rewrite <- Hz; left; reflexivity). apply StProofs.Z_text_chars in Hi. lia.
  - left. right. left. reflexivity.
  - intros z Hz. assert (Hi : In 10%N (Z_text z)) by (rewrite <- Hz; right; left; reflexivity). apply StProofs.Z_text_chars in Hi. lia.
Qed.
@end *)

(** @prop C62 The texts of different values can be the same: a text of digits is written like the
    number. *)
Lemma yaml_quoting_ambiguous :
  exists v w, ~ reordered v w /\ forall E wrap, yaml_serialize E wrap v = yaml_serialize E wrap w.
Proof.
  exists (VStr $"1"), (VInt 1). split; [|reflexivity]. intros H. inversion H.
Qed.

(** @example
Example C62_ambiguous_example :
  yaml_serialize env0 wrap62 (VList [VStr $"12"; VStr $"a"]) = yaml_serialize env0 wrap62 (VList [VInt 12; VStr $"a"]).
Proof. vm_compute. reflexivity. Qed.
@end *)

(** ** Texts of one line *)

Lemma doubled_quote s : yaml_quote s = 39 :: doubled s ++ [39].
Proof.
  unfold yaml_quote. change (39 :: doubled s ++ [39]) with ($"'" ++ doubled s ++ $"'").
  assert (H : flat_map (fun c => if c =? 39 then [39; 39] else [c]) s = doubled s).
  { induction s as [|c s IH]; [reflexivity|]. cbn [flat_map doubled]. rewrite IH. reflexivity. }
  rewrite H. reflexivity.
Qed.

Lemma plain_bare s : s <> [] -> is_quoted s = false ->
  (exists c r, s = c :: r /\ ~ In c [45; 63; 58; 44; 91; 93; 123; 125; 35; 38; 42; 33; 124; 62; 39; 34; 37; 64; 96])
  /\ (forall a b, s <> a ++ [58; 32] ++ b) /\ (forall a b, s <> a ++ [32; 35] ++ b)
  /\ ~ In (map lower_ascii s) [$"null"; $"~"; $"true"; $"false"].
Proof.
  intros Hn H. destruct s as [|c s]; [congruence|]. unfold is_quoted in H. apply orb_false_iff in H. destruct H as [Hw H].
  unfold requires_escaping in H. apply orb_false_iff in H. destruct H as [H Hh]. apply orb_false_iff in H. destruct H as [Hi Hc].
  split; [|split; [|split]].
  - exists c, s. split; [reflexivity|]. intros Hin. rewrite <- not_true_iff_false in Hi. apply Hi. apply existsb_exists.
    exists c. split; [exact Hin|apply N.eqb_refl].
  - intros a b Heq. rewrite Heq in Hc. change ($": ") with [58; 32] in Hc. rewrite holds_app in Hc; [discriminate|reflexivity].
  - intros a b Heq. rewrite Heq in Hh. change ($" #") with [32; 35] in Hh. rewrite holds_app in Hh; [discriminate|reflexivity].
  - intros Hin. rewrite <- not_true_iff_false in Hw. apply Hw. clear Hw.
    apply andb_true_intro. split.
    + apply Nat.leb_le. rewrite <- (map_length lower_ascii (c :: s)).
      destruct Hin as [<-|[<-|[<-|[<-|[]]]]]; cbn; lia.
    + unfold smem. apply existsb_exists. eexists. split; [exact Hin|]. apply str_eqb_refl.
Qed.

Lemma scalar_text_inv t s : scalar_text t s -> t = 39 :: doubled s ++ [39] \/ t = s /\ plain_scalar s.
Proof. intros []; auto. Qed.

Lemma scalar_text_unique t s s' : scalar_text t s -> scalar_text t s' -> s = s'.
Proof.
  intros H H'. apply scalar_text_inv in H, H'.
  destruct H as [H|[H [[c [r [Hc [_ Hi]]]] _]]], H' as [H'|[H' [[c' [r' [Hc' [_ Hi']]]] _]]].
  - apply quote_inj. rewrite !doubled_quote. congruence.
  - exfalso. assert (c' = 39) by congruence. apply Hi'. subst c'. cbn. tauto.
  - exfalso. assert (c = 39) by congruence. apply Hi. subst c. cbn. tauto.
  - congruence.
Qed.

Lemma no_newline s : one_line s -> existsb (N.eqb 10) s = false.
Proof.
  intros [_ H]. destruct (existsb (N.eqb 10) s) eqn:He; [|reflexivity]. apply existsb_exists in He.
  destruct He as [x [Hx Heq]]. apply N.eqb_eq in Heq. subst x. destruct (H _ Hx) as [Hc _]. lia.
Qed.

(** @prop C62 A text of one line, without blanks around it and without a colon at its end, is written as a
    scalar from which YAML reads this text and no other, if it is short enough for the line. *)
Lemma yaml_text_scalar :
  forall E wrap s level,
    one_line s -> (length s + 2 * level <= 100)%nat ->
    (forall r, s <> 32 :: r) -> (forall a, s <> a ++ [32]) -> (forall a, s <> a ++ [58]) ->
    exists t, yaml_value E wrap (VStr s) level = Ok (Inline t)
      /\ forall s', scalar_text t s' <-> s' = s.
Proof.
  intros E wrap s level Hl Hs Hb He Hc. cbn [yaml_value].
  rewrite string_content by (right; exact Hs). rewrite (no_newline s Hl).
  assert (Hu : forall t, scalar_text t s -> forall s', scalar_text t s' <-> s' = s).
  { intros t Ht s'. split; [intros Ht'; exact (scalar_text_unique t s' s Ht' Ht)|intros ->; exact Ht]. }
  destruct (is_quoted s) eqn:Hq.
  - exists (yaml_quote s). split; [reflexivity|]. apply Hu. rewrite doubled_quote. constructor.
  - exists s. split; [reflexivity|]. apply Hu. constructor.
    destruct (plain_bare s (proj1 Hl) Hq) as [[c [r [Hcr Hi]]] [H1 [H2 H3]]].
    split; [exists c, r; split; [exact Hcr|split; [intros ->; exact (Hb _ Hcr)|exact Hi]]|].
    split; [exact H1|]. split; [exact H2|]. split; [exact Hc|]. split; [exact He|exact H3].
Qed.

(** @example
Example C62_scalar_example :
  yaml_value env0 wrap62 (VStr $"#1: it's") 3 = Ok (Inline $"'#1: it''s'")
  /\ scalar_text $"'#1: it''s'" $"#1: it's"
  /\ yaml_value env0 wrap62 (VStr $"it's a#1:b") 3 = Ok (Inline $"it's a#1:b").
Proof. split; [vm_compute; reflexivity|]. split; [apply (text_quoted $"#1: it's")|vm_compute; reflexivity]. Qed.
@end *)

(** @prop C62 A text that ends with a colon or has blanks around it is written in quotes if its first
    character or its inside asks for it, and otherwise as it is, which YAML does not read as a text. *)
Lemma yaml_text_unsafe :
  forall E wrap s level,
    one_line s -> (length s + 2 * level <= 100)%nat ->
    (exists r, s = 32 :: r) \/ (exists a, s = a ++ [32]) \/ (exists a, s = a ++ [58]) ->
    (exists c r, s = c :: r /\ ~ In c [45; 63; 58; 44; 91; 93; 123; 125; 35; 38; 42; 33; 124; 62; 39; 34; 37; 64; 96]) ->
    (forall a b, s <> a ++ [58; 32] ++ b) -> (forall a b, s <> a ++ [32; 35] ++ b) ->
    yaml_value E wrap (VStr s) level = Ok (Inline s) /\ forall s', ~ scalar_text s s'.
Proof.
  intros E wrap s level Hl Hs Hbad [c [r [Hcr Hi]]] H1 H2. cbn [yaml_value].
  rewrite string_content by (right; exact Hs). rewrite (no_newline s Hl).
  assert (Hlast : forall a x, s = a ++ [x] -> map lower_ascii s = map lower_ascii a ++ [lower_ascii x])
    by (intros a x ->; apply map_app).
  assert (Hq : is_quoted s = false).
  { rewrite Hcr. unfold is_quoted. rewrite <- Hcr. apply orb_false_intro.
    - apply andb_false_intro2. destruct (smem _ _) eqn:Hm; [|reflexivity]. exfalso.
      unfold smem in Hm. apply existsb_exists in Hm. destruct Hm as [w [Hw Heq]]. apply str_eqb_eq in Heq.
      destruct Hbad as [[r' Hr]|[[a Ha]|[a Ha]]].
      + rewrite Hr in Heq. cbn in Heq. subst w. destruct Hw as [Hw|[Hw|[Hw|[Hw|[]]]]]; discriminate Hw.
      + rewrite (Hlast _ _ Ha) in Heq. apply (f_equal (fun l => last l 0)) in Heq. rewrite last_last in Heq.
        subst. destruct Hw as [<-|[<-|[<-|[<-|[]]]]]; discriminate Heq.
      + rewrite (Hlast _ _ Ha) in Heq. apply (f_equal (fun l => last l 0)) in Heq. rewrite last_last in Heq.
        subst. destruct Hw as [<-|[<-|[<-|[<-|[]]]]]; discriminate Heq.
    - rewrite Hcr. unfold requires_escaping. rewrite <- Hcr. apply orb_false_intro; [apply orb_false_intro|].
      + destruct (existsb (N.eqb c) indicators) eqn:Hx; [|reflexivity]. apply existsb_exists in Hx.
        destruct Hx as [d [Hd Heq]]. apply N.eqb_eq in Heq. subst d. contradiction.
      + destruct (holds $": " s) eqn:Hh; [|reflexivity]. exfalso. destruct (holds_split _ _ Hh) as [a [b Hab]]. exact (H1 a b Hab).
      + destruct (holds $" #" s) eqn:Hh; [|reflexivity]. exfalso. destruct (holds_split _ _ Hh) as [a [b Hab]]. exact (H2 a b Hab). }
  rewrite Hq. split; [reflexivity|]. intros s' Hst. apply scalar_text_inv in Hst.
  destruct Hst as [Ht|[<- [[c' [r' [Hcr' [Hsp _]]]] [_ [_ [Hc [Hb _]]]]]]].
  - assert (c = 39) by congruence. subst c. apply Hi. cbn. tauto.
  - destruct Hbad as [[r'' Hr]|[[a Ha]|[a Ha]]].
    + apply Hsp. congruence.
    + exact (Hb a Ha).
    + exact (Hc a Ha).
Qed.

(** @example
Example C62_unsafe_example :
  one_line $"note:" /\ yaml_serialize env0 wrap62 (VList [VStr $"note:"]) = Ok $"- note:"
  /\ forall s', ~ scalar_text $"note:" s'.
Proof.
  assert (Hl : one_line $"note:").
  { split; [discriminate|]. cbn. intros c Hc. repeat (destruct Hc as [<-|Hc]; [repeat split; discriminate|]). destruct Hc. }
  split; [exact Hl|]. split; [vm_compute; reflexivity|].
  apply (yaml_text_unsafe env0 wrap62 $"note:" 0%nat Hl).
  - cbn. repeat constructor.
  - right. right. exists $"note". reflexivity.
  - exists 110%N, $"ote:". split; [reflexivity|]. cbn. intros H. repeat (destruct H as [H|H]; [discriminate H|]). exact H.
  - intros a b H. apply (f_equal (fun s => existsb (N.eqb 32) s)) in H. rewrite existsb_app in H. cbn in H. rewrite orb_true_r in H. discriminate H.
  - intros a b H. apply (f_equal (fun s => existsb (N.eqb 32) s)) in H. rewrite existsb_app in H. cbn in H. rewrite orb_true_r in H. discriminate H.
Qed.
@end *)

(** ** Long texts *)

Lemma line_break_breaks c : line_break c = true <-> In c breaks.
Proof.
  unfold line_break, breaks. split.
  - intros H. cbn. lia.
  - cbn. intros H. repeat (destruct H as [<-|H]; [reflexivity|]). destruct H.
Qed.

Lemma split_lines_cut s : cut_lines s (split_lines s).
Proof.
  induction s as [|c s IH]; [constructor|]. cbn [split_lines].
  destruct (line_break c) eqn:Hc.
  - apply (cut_break [] c s); [intros d []|apply line_break_breaks; exact Hc|exact IH].
  - assert (Hn : ~ In c breaks) by (intros H; apply line_break_breaks in H; congruence).
    assert (Hx : forall l, (forall d, In d l -> ~ In d breaks) -> forall d, In d (c :: l) -> ~ In d breaks)
      by (intros l Hl d [<-|Hd]; [exact Hn|exact (Hl d Hd)]).
    inversion IH as [Hs Hz|l Hl Hb Hs Hz|l d r ls Hl Hd Hr Hs Hz]; subst.
    + apply cut_last; [discriminate|]. apply Hx. intros d [].
    + apply cut_last; [discriminate|]. apply Hx. exact Hb.
    + change (c :: l ++ d :: r) with ((c :: l) ++ d :: r). apply cut_break; [apply Hx; exact Hl|exact Hd|exact Hr].
Qed.

(** @prop C62 A text that is too long for the line is written line by line, each line wrapped with the
    indent of the level; if it cannot be a plain scalar, all of it is put in quotes first. *)
Lemma yaml_long_text :
  forall E wrap s level,
    (100 < length s + 2 * level)%nat -> (5 < length s)%nat -> ~ In 10 s ->
    exists written lines,
      yaml_value E wrap (VStr s) level = Ok (Block (flat_map (wrap (indents level)) lines))
      /\ cut_lines written lines
      /\ ((exists r, written = 39 :: r) -> written = 39 :: doubled s ++ [39])
      /\ ((forall r, written <> 39 :: r) -> written = s
          /\ (forall a b, s <> a ++ [58; 32] ++ b) /\ (forall a b, s <> a ++ [32; 35] ++ b)
          /\ exists c r, s = c :: r /\ ~ In c [45; 63; 58; 44; 91; 93; 123; 125; 35; 38; 42; 33; 124; 62; 39; 34; 37; 64; 96]).
Proof.
  intros E wrap s level Hlong Hfive Hn.
  assert (Hne : s <> []) by (intros ->; cbn in Hfive; lia).
  exists (if requires_escaping s then yaml_quote s else s). eexists. split; [|split; [apply split_lines_cut|]].
  - cbn [yaml_value]. unfold yaml_string. destruct s as [|c s]; [congruence|]. set (t := c :: s) in *.
    destruct (Nat.leb_spec (length t) 5) as [H5|_]; [lia|]. cbn [andb].
    destruct (existsb (N.eqb 10) t) eqn:He.
    + apply existsb_exists in He. destruct He as [x [Hx Heq]]. apply N.eqb_eq in Heq. subst x. contradiction.
    + destruct (Nat.leb_spec (length t + 2 * level) 100); [lia|]. reflexivity.
  - destruct (requires_escaping s) eqn:Hr.
    + split; [intros _; apply doubled_quote|]. intros H. exfalso. rewrite doubled_quote in H. eapply H. reflexivity.
    + assert (Hq : is_quoted s = false).
      { destruct s as [|c s]; [congruence|]. unfold is_quoted. rewrite Hr, orb_false_r.
        apply andb_false_intro1. apply Nat.leb_gt. exact Hfive. }
      destruct (plain_bare s Hne Hq) as [[c [r [Hcr Hi]]] [H1 [H2 _]]]. split.
      * intros [r' Hr']. exfalso. apply Hi. assert (c = 39) by congruence. subst c. cbn. tauto.
      * intros _. split; [reflexivity|]. split; [exact H1|]. split; [exact H2|]. exists c, r. split; [exact Hcr|exact Hi].
Qed.

(** @example
Example C62_long_example :
  let s := repeat 97%N 60 ++ [13%N] ++ repeat 98%N 60 in
  yaml_value env0 wrap62 (VStr s) 1
  = Ok (Block [indents 1 ++ repeat 97%N 60; indents 1 ++ repeat 98%N 60])
  /\ cut_lines s [repeat 97%N 60; repeat 98%N 60].
Proof.
  split; [vm_compute; reflexivity|]. apply cut_break; [|cbn; tauto|apply cut_last; [discriminate|]];
    intros d Hd; apply repeat_spec in Hd; subst d; cbn; intros H; repeat (destruct H as [H|H]; [discriminate H|]); exact H.
Qed.
@end *)
