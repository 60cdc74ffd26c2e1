(** * Proofs about the documentation generator. *)
(* @imports Spec Demo BuildSpec DocSpec *)
From Verif Require Import BuildSpec PyBaseFacts Demo DescFacts DescProofs BuildProofs FmtProofs Doc DocSpec.
Open Scope nat_scope.

Lemma split_mid a b : split_on 10 (a ++ 10%N :: b) = split_on 10 a ++ split_on 10 b.
Proof.
  induction a as [|c a IH]; cbn [app split_on].
  - now rewrite N.eqb_refl.
  - destruct (N.eqb c 10); [now rewrite IH|].
    rewrite IH. destruct (split_on 10 a) as [|x r] eqn:S; [now apply split_on_nonempty in S|reflexivity].
Qed.

Lemma split_join_lines xs : xs <> [] ->
  split_on 10 (join [10%N] xs) = flat_map (split_on 10) xs.
Proof.
  induction xs as [|x xs IH]; [easy|]. intros _. destruct xs as [|y ys].
  - cbn. now rewrite app_nil_r.
  - rewrite join_cons by discriminate. cbn [app]. rewrite split_mid, IH by discriminate. reflexivity.
Qed.

Lemma blanks_one_line n : one_line (blanks n).
Proof. unfold one_line, blanks. intros H. apply repeat_spec in H. discriminate. Qed.

Lemma one_line_app a b : one_line a -> one_line b -> one_line (a ++ b).
Proof. unfold one_line. intros A B H. apply in_app_or in H. tauto. Qed.

Lemma within_more n m line : m <= n -> within n line -> within m line.
Proof.
  intros L [->|[r ->]]; [now left|]. right.
  exists (repeat 32%N (n - m) ++ r). rewrite app_assoc, <- repeat_app.
  now replace (m + (n - m)) with n by lia.
Qed.

Lemma in_split_mid a b line :
  In line (split_on 10 (a ++ 10%N :: b)) <-> In line (split_on 10 a) \/ In line (split_on 10 b).
Proof. rewrite split_mid. apply in_app_iff. Qed.

Lemma prefixed_lines pre s : one_line pre ->
  exists first rest, split_on 10 s = first :: rest /\ split_on 10 (pre ++ s) = (pre ++ first) :: rest.
Proof.
  intros H. revert s. induction pre as [|c pre IH]; intros s.
  - destruct (split_on 10 s) as [|f r] eqn:S; [now apply split_on_nonempty in S|]. exists f, r. cbn. now rewrite S.
  - destruct (IH (fun I => H (or_intror I)) s) as [f [r [S1 S2]]]. exists f, r. split; [exact S1|].
    cbn [app split_on]. rewrite S2.
    destruct (N.eqb_spec c 10) as [->|_]; [exfalso; apply H; now left|reflexivity].
Qed.

(** The lines of a parameter. *)
Lemma param_lines E m nv :
  one_line (fst nv) ->
  exists first rest,
    lines (arg_text E (snd nv)) = first :: rest
    /\ lines (render_param E (blanks m) nv)
       = (blanks m ++ $":" ++ fst nv ++ $": " ++ first) :: map (fun v => blanks m ++ blanks 4 ++ v) rest.
Proof.
  intros H. unfold render_param, lines.
  destruct (split_on 10 (arg_text E (snd nv))) as [|f r] eqn:S; [now apply split_on_nonempty in S|].
  exists f, r. split; [reflexivity|].
  assert (P := split_on_pieces 10 (arg_text E (snd nv))). rewrite S in P.
  apply Forall_inv in P as P1. apply Forall_inv_tail in P as P2.
  set (all := f :: map (fun v => blanks m ++ blanks 4 ++ v) r).
  assert (HJ : split_on 10 (join [10%N] all) = all).
  { apply split_join; [discriminate|]. constructor; [exact P1|]. apply Forall_forall. intros x Hx.
    apply in_map_iff in Hx as [v [<- Hv]]. apply one_line_app; [apply blanks_one_line|].
    apply one_line_app; [apply blanks_one_line|]. exact (proj1 (Forall_forall _ _) P2 v Hv). }
  rewrite !app_assoc.
  destruct (prefixed_lines (((blanks m ++ $":") ++ fst nv) ++ $": ") (join [10%N] all)) as [f' [r' [S1 S2]]].
  { repeat (apply one_line_app; [|]); try apply blanks_one_line; try exact H;
      unfold one_line; cbn; intuition discriminate. }
  rewrite HJ in S1. unfold all in S1. injection S1 as E1 E2. subst f' r'. rewrite S2.
  now rewrite <- !app_assoc.
Qed.

Lemma node_ind' (P : node -> Prop) :
  (forall name args params content, Forall P content -> P (Block name args params content)) ->
  (forall text, P (Words text)) -> forall d, P d.
Proof.
  intros HB HW. fix IH 1. intros [name args params content|text]; [|apply HW].
  apply HB. induction content as [|d l IHl]; constructor; [apply IH|exact IHl].
Qed.

Lemma header_one_line n name args :
  one_line name -> Forall one_line args ->
  one_line (blanks n ++ $".. " ++ name ++ $":: " ++ join [32%N] args).
Proof.
  intros H1 H2.
  apply one_line_app; [apply blanks_one_line|]. apply one_line_app; [unfold one_line; cbn; intuition discriminate|].
  apply one_line_app; [exact H1|]. apply one_line_app; [unfold one_line; cbn; intuition discriminate|].
  induction args as [|a args IH]; [intros []|].
  apply Forall_inv in H2 as HA. apply Forall_inv_tail in H2.
  destruct args as [|b args]; [cbn; rewrite ?app_nil_r; exact HA|].
  rewrite join_cons by discriminate. apply one_line_app; [exact HA|].
  apply one_line_app; [intros [D|[]]; discriminate|]. now apply IH.
Qed.

(** The lines of a block. *)
Lemma block_lines E wrap n name args params content :
  one_line name -> Forall one_line args ->
  lines (render_node E wrap n (Block name args params content))
  = [] :: (blanks (4 * n) ++ $".. " ++ name ++ $":: " ++ join [32%N] args)
    :: lines (join [10%N] (map (render_param E (blanks (4 * S n))) params))
    ++ [] :: lines (join [10%N; 10%N] (map (render_node E wrap (S n)) content)).
Proof.
  intros H1 H2. assert (HH := header_one_line (4 * n) name args H1 H2).
  cbn [render_node]. unfold lines. cbn [app].
  change (10%N :: ?x) with ([] ++ 10%N :: x) at 1. rewrite split_mid. cbn [split_on app].
  set (P := join [10%N] (map (render_param E (blanks (4 * S n))) params)).
  set (C := join [10%N; 10%N] (map (render_node E wrap (S n)) content)).
  replace (blanks (4 * n) ++ $".. " ++ name ++ $":: " ++ join [32%N] args ++ 10%N :: P ++ 10%N :: 10%N :: C)
    with ((blanks (4 * n) ++ $".. " ++ name ++ $":: " ++ join [32%N] args) ++ 10%N :: P ++ 10%N :: [] ++ 10%N :: C)
    by (rewrite <- !app_assoc; reflexivity).
  rewrite split_mid, (split_on_none 10 _ HH), split_mid, split_mid. reflexivity.
Qed.

Lemma content_lines (xs : list str) :
  lines (join [10%N; 10%N] xs)
  = match xs with
    | [] => [[]]
    | x :: rest => lines x ++ flat_map (fun y => [] :: lines y) rest
    end.
Proof.
  destruct xs as [|x xs]; [reflexivity|]. revert x. induction xs as [|y ys IH]; intros x.
  - cbn. now rewrite app_nil_r.
  - rewrite join_cons by discriminate. unfold lines. cbn [app].
    replace (x ++ 10%N :: 10%N :: join [10%N; 10%N] (y :: ys))
      with (x ++ 10%N :: [] ++ 10%N :: join [10%N; 10%N] (y :: ys)) by reflexivity.
    rewrite split_mid, split_mid. fold (lines (join [10%N; 10%N] (y :: ys))). rewrite IH. reflexivity.
Qed.

Lemma in_content line xs :
  In line (lines (join [10%N; 10%N] xs)) -> line = [] \/ exists x, In x xs /\ In line (lines x).
Proof.
  rewrite content_lines. destruct xs as [|x xs]; [intros [<-|[]]; now left|].
  intros H. apply in_app_or in H as [H|H]; [right; exists x; split; [now left|exact H]|].
  apply in_flat_map in H as [y [Hy [<-|H]]]; [now left|]. right. exists y. split; [now right|exact H].
Qed.

Lemma params_within E m params :
  Forall (fun nv => one_line (fst nv)) params ->
  Forall (within m) (lines (join [10%N] (map (render_param E (blanks m)) params))).
Proof.
  intros H. destruct params as [|nv params].
  - repeat constructor.
  - unfold lines. rewrite split_join_lines by discriminate.
    apply Forall_forall. intros line HL. apply in_flat_map in HL as [x [Hx HL]].
    apply in_map_iff in Hx as [nv' [<- Hn]].
    destruct (param_lines E m nv' (proj1 (Forall_forall _ _) H nv' Hn)) as [f [r [_ S]]].
    unfold lines in S. rewrite S in HL. right. destruct HL as [<-|HL].
    + eexists. reflexivity.
    + apply in_map_iff in HL as [v [<- _]]. eexists. reflexivity.
Qed.

Lemma render_within E wrap : wraps wrap -> forall d, neat d ->
  forall n, Forall (within (4 * n)) (lines (render_node E wrap n d)).
Proof.
  intros HW. apply (node_ind' (fun d => neat d -> forall n, Forall (within (4 * n)) (lines (render_node E wrap n d)))).
  - intros name args params content IH HN n. inversion HN as [? ? ? ? N1 N2 N3 N4|]; subst.
    rewrite block_lines by assumption.
    constructor; [now left|]. constructor; [right; eexists; reflexivity|].
    apply Forall_app. split.
    + eapply Forall_impl; [|apply (params_within E (4 * S n) params N3)].
      intros line. apply within_more. lia.
    + constructor; [now left|]. apply Forall_forall. intros line HL.
      apply in_content in HL as [->|[x [Hx HL]]]; [now left|].
      apply in_map_iff in Hx as [d [<- Hd]].
      assert (HF := proj1 (Forall_forall _ _) IH d Hd (proj1 (Forall_forall _ _) N4 d Hd) (S n)).
      apply (within_more (4 * S n)); [lia|]. exact (proj1 (Forall_forall _ _) HF line HL).
  - intros text _ n. cbn [render_node]. set (w := wrap (blanks (4 * n)) (lstrip is_space text)).
    assert (HI : forall line, In line w -> one_line line /\ within (4 * n) line).
    { intros line HL. destruct (HW _ _ _ HL) as [H1 [r Hr]]. split; [apply H1, blanks_one_line|].
      right. exists r. exact Hr. }
    clearbody w. destruct w as [|x w]; [repeat constructor|].
    unfold lines. rewrite split_join; [|discriminate|].
    + apply Forall_forall. intros line HL. now apply HI.
    + apply Forall_forall. intros line HL. now apply HI.
Qed.

(** @prop C85 Every rendered directive starts with an empty line and with its own line, ".. name::"
    and the arguments behind the indentation asked for; every further line, at any depth of nesting,
    is empty or indented by at least four more blanks, so that all of it belongs to the directive.
    The values of parameters may hold line breaks. *)
Lemma render_nests :
  forall E wrap n name args params content,
    wraps wrap -> neat (Block name args params content) ->
    exists rest,
      lines (render_node E wrap n (Block name args params content))
      = [] :: (repeat 32%N (4 * n) ++ $".. " ++ name ++ $":: " ++ join [32%N] args) :: rest
      /\ Forall (within (4 * n + 4)) rest.
Proof.
  intros E wrap n name args params content HW HN. inversion HN as [? ? ? ? N1 N2 N3 N4|]; subst.
  eexists. split; [apply block_lines; assumption|].
  replace (4 * n + 4) with (4 * S n) by lia.
  apply Forall_app. split; [apply params_within; exact N3|].
  constructor; [now left|]. apply Forall_forall. intros line HL.
  apply in_content in HL as [->|[x [Hx HL]]]; [now left|].
  apply in_map_iff in Hx as [d [<- Hd]].
  assert (HF := render_within E wrap HW d (proj1 (Forall_forall _ _) N4 d Hd) (S n)).
  exact (proj1 (Forall_forall _ _) HF line HL).
Qed.
(** @example
Example C85_render_nests_example :
  let wrap := fun prefix text => [prefix ++ text] in
  let d := Block $"field" [$"a"] [($"type", VStr $"text"); ($"notes", VStr ($"x" ++ [10%N] ++ $"y"))]
             [Block $"field" [[]] [] []] in
  wraps (fun prefix text => [prefix ++ $"t"]) /\ neat d
  /\ lines (render_node env0 wrap 0%nat d)
     = [[]; $".. field:: a"; $"    :type: text"; $"    :notes: x"; $"        y"; [];
        []; $"    .. field:: "; []; []; []].
Proof.
  split; [|split].
  - intros prefix text line [<-|[]]. split; [|exists $"t"; reflexivity].
    unfold one_line. intros H I. apply in_app_or in I as [I|I]; [now apply H|].
    cbn in I. intuition discriminate.
  - repeat constructor; unfold one_line; cbn; intuition discriminate.
  - vm_compute. reflexivity.
Qed.
@end *)

(** @prop C85 Nothing is lost: the lines of each parameter (name, first line of the value, further
    lines of the value indented by four more blanks) and the lines of the rendering of each directive
    or text in the content appear as they are, one after the other. *)
Lemma render_keeps :
  forall E wrap n name args params content,
    neat (Block name args params content) ->
    let whole := lines (render_node E wrap n (Block name args params content)) in
    (forall key v, In (key, v) params ->
       exists first rest,
         lines (arg_text E v) = first :: rest
         /\ among ((repeat 32%N (4 * n + 4) ++ $":" ++ key ++ $": " ++ first)
                   :: map (fun line => repeat 32%N (4 * n + 8) ++ line) rest) whole)
    /\ (forall d, In d content -> among (lines (render_node E wrap (n + 1) d)) whole).
Proof.
  intros E wrap n name args params content HN. cbn zeta. inversion HN as [? ? ? ? N1 N2 N3 N4|]; subst.
  rewrite block_lines by assumption. split.
  - intros key v HI. destruct (param_lines E (4 * S n) (key, v)) as [f [r [S1 S2]]].
    { exact (proj1 (Forall_forall _ _) N3 _ HI). }
    exists f, r. split; [exact S1|].
    destruct (in_split _ _ HI) as [p1 [p2 ->]].
    unfold lines at 2. rewrite split_join_lines by (destruct p1; discriminate).
    rewrite map_app, flat_map_app. cbn [map flat_map]. fold (lines (render_param E (blanks (4 * S n)) (key, v))).
    rewrite S2. unfold among.
    exists ([] :: (blanks (4 * n) ++ $".. " ++ name ++ $":: " ++ join [32%N] args)
            :: flat_map (split_on 10) (map (render_param E (blanks (4 * S n))) p1)).
    eexists. cbn [app]. f_equal. f_equal. rewrite <- !app_assoc. f_equal.
    replace (4 * n + 4) with (4 * S n) by lia. cbn [fst]. f_equal.
    replace (map (fun line => repeat 32%N (4 * n + 8) ++ line) r)
      with (map (fun v0 => blanks (4 * S n) ++ blanks 4 ++ v0) r);
      [cbn [app]; rewrite <- !app_assoc; reflexivity|].
    apply map_ext. intros line. rewrite app_assoc. unfold blanks. rewrite <- repeat_app.
    now replace (4 * S n + 4) with (4 * n + 8) by lia.
  - intros d HI. replace (n + 1) with (S n) by lia. rewrite content_lines.
    destruct (in_split _ _ HI) as [c1 [c2 ->]]. unfold among.
    set (r := render_node E wrap (S n)).
    set (pre := [] :: (blanks (4 * n) ++ $".. " ++ name ++ $":: " ++ join [32%N] args)
                :: lines (join [10%N] (map (render_param E (blanks (4 * S n))) params)) ++ [[]]).
    destruct c1 as [|c c1].
    + exists pre. eexists. unfold pre. cbn [app map]. rewrite <- ?app_assoc. reflexivity.
    + exists (pre ++ lines (r c) ++ flat_map (fun y => [] :: lines y) (map r c1) ++ [[]]).
      eexists. unfold pre. cbn [app map]. rewrite map_app, flat_map_app. cbn [map flat_map app].
      rewrite <- ?app_assoc. cbn [app]. rewrite <- ?app_assoc. reflexivity.
Qed.
(** @example
Example C85_render_keeps_example :
  let wrap := fun prefix text => [prefix ++ text] in
  let d := Block $"field" [$"a"] [($"notes", VStr ($"x" ++ [10%N] ++ $"y"))] [Words $" some words"] in
  neat d
  /\ lines (render_node env0 wrap 1%nat d)
     = [[]; $"    .. field:: a"; $"        :notes: x"; $"            y"; []; $"        some words"].
Proof. split; [repeat constructor; unfold one_line; cbn; intuition discriminate | vm_compute; reflexivity]. Qed.
@end *)

(** ** Documents *)

Lemma describe_type_ext E repr s1 s2 t1 t2 :
  (forall k, s1 k = s2 k) -> (forall k, t1 k = t2 k) ->
  forall ft l d, describe_type E repr s1 t1 ft l d = describe_type E repr s2 t2 ft l d.
Proof. intros H1 H2 ft l d. unfold describe_type. rewrite (H1 $"value"), (H1 $"item"), (H2 $"values"). reflexivity. Qed.

(** One level of [document]. *)
Definition level (E : env) (repr : val -> str) (role : option str) (sectional : bool)
    (l : list (val * val)) (name : str) (key : val) : res node :=
  match sget $"fieldtype" l with
  | None => py KeyError
  | Some (VTuple _) => outside
  | Some t =>
      describe_type E repr
        (fun k => match sget k l with
                  | Some v => document E repr role false v
                  | None => fun _ _ => py TypeError
                  end)
        (fun k => match sget k l with
                  | Some (VList xs) | Some (VTuple xs) => map (document E repr role false) xs
                  | _ => []
                  end)
        (arg_text E t) l
        (Block $"field" [name]
           (common_params repr role sectional
              (if truthy key then VStr (arg_text E key ++ $": " ++ arg_text E t) else t) l) [])
  end.

Lemma document_dict E repr role sectional v l name key :
  as_dict v = Some l ->
  document E repr role sectional v name key = level E repr role sectional l name key.
Proof.
  intros A.
  set (go := fix go (l : list (val * val)) : list (str * (documenter * list documenter)) :=
    match l with
    | [] => []
    | (VStr k, v) :: l' =>
        (k, (document E repr role false v,
             match v with VList xs | VTuple xs => map (document E repr role false) xs | _ => [] end)) :: go l'
    | _ :: l' => go l'
    end).
  assert (G : forall k, aget k (go l) = match sget k l with
                | None => None
                | Some v => Some (document E repr role false v,
                    match v with VList xs | VTuple xs => map (document E repr role false) xs | _ => [] end)
                end).
  { clear A. intros k. induction l as [|[a w] l IH]; [reflexivity|].
    destruct a; try exact IH. cbn. destruct (str_eqb k s); [reflexivity|exact IH]. }
  assert (R : forall t ft d, describe_type E repr
          (fun k => match aget k (go l) with Some s => fst s | None => fun _ _ => py TypeError end)
          (fun k => match aget k (go l) with Some s => snd s | None => [] end) ft t d
        = describe_type E repr
        (fun k => match sget k l with
                  | Some v => document E repr role false v
                  | None => fun _ _ => py TypeError
                  end)
        (fun k => match sget k l with
                  | Some (VList xs) | Some (VTuple xs) => map (document E repr role false) xs
                  | _ => []
                  end) ft t d).
  { intros t ft d. apply describe_type_ext; intros k; rewrite G;
      (destruct (sget k l) as [w|]; [destruct w|]; reflexivity). }
  unfold level.
  destruct v; try discriminate A; injection A as ->;
    (cbn [document]; fold go; destruct (sget $"fieldtype" l) as [t|]; [destruct t; first [apply R|reflexivity]|reflexivity]).
Qed.

(** What the formatters add. *)
Definition extra (s : str) : Prop :=
  In s [$"constraints"; $"values"; $"required_keys"; $"subtype"; $"unique"; $"pattern"].
Definition grows (d d' : node) : Prop :=
  match d, d' with
  | Block n a p c, Block n' a' p' c' =>
      n' = n /\ a' = a /\ (exists q, p' = p ++ q /\ forall k v, In (k, v) q -> extra k) /\ exists e, c' = c ++ e
  | _, _ => False
  end.

Lemma grows_refl n a p c : grows (Block n a p c) (Block n a p c).
Proof.
  repeat split; [exists []; rewrite app_nil_r; split; [reflexivity|intros ? ? []] | exists []; now rewrite app_nil_r].
Qed.
Lemma grows_trans a b c : grows a b -> grows b c -> grows a c.
Proof.
  destruct a as [n1 a1 p1 c1|], b as [n2 a2 p2 c2|], c as [n3 a3 p3 c3|]; cbn; try easy.
  intros (-> & -> & (q1 & -> & Q1) & e1 & ->) (-> & -> & (q2 & -> & Q2) & e2 & ->).
  repeat split; [exists (q1 ++ q2); rewrite app_assoc; split; [reflexivity|] | exists (e1 ++ e2); now rewrite app_assoc].
  intros k v H. apply in_app_or in H as [H|H]; eauto.
Qed.
Lemma grows_set k v n a p c : extra k -> grows (Block n a p c) (set_param k v (Block n a p c)).
Proof.
  intros H. repeat split; [exists [(k, v)]; split; [reflexivity|intros ? ? [E|[]]; now injection E as <- <-] | exists []; now rewrite app_nil_r].
Qed.
Lemma grows_append x n a p c : grows (Block n a p c) (append x (Block n a p c)).
Proof.
  repeat split; [exists []; rewrite app_nil_r; split; [reflexivity|intros ? ? []] | now exists [x]].
Qed.
Lemma grows_constraints sep cs n a p c : grows (Block n a p c) (set_constraints sep cs (Block n a p c)).
Proof. destruct cs; [apply grows_refl|]. apply grows_set. now left. Qed.

Lemma extra_by (s : str) : smem s [$"constraints"; $"values"; $"required_keys"; $"subtype"; $"unique"; $"pattern"] = true -> extra s.
Proof. apply smem_In. Qed.

Definition is_block (d : node) : Prop := match d with Block _ _ _ _ => True | _ => False end.
Lemma grows_block d d' : grows d d' -> is_block d'.
Proof. destruct d, d'; cbn; easy. Qed.

Lemma g_refl d : is_block d -> grows d d.
Proof. destruct d; [intros _; apply grows_refl|easy]. Qed.
Lemma g_set k v d0 d : smem k [$"constraints"; $"values"; $"required_keys"; $"subtype"; $"unique"; $"pattern"] = true ->
  grows d0 d -> grows d0 (set_param k v d).
Proof.
  intros H G. destruct d; [|now apply grows_block in G]. eapply grows_trans; [exact G|]. now apply grows_set, extra_by.
Qed.
Lemma g_constraints sep cs d0 d : grows d0 d -> grows d0 (set_constraints sep cs d).
Proof.
  intros G. destruct d; [|now apply grows_block in G]. eapply grows_trans; [exact G|]. apply grows_constraints.
Qed.
Lemma g_append x d0 d : grows d0 d -> grows d0 (append x d).
Proof.
  intros G. destruct d; [|now apply grows_block in G]. eapply grows_trans; [exact G|]. apply grows_append.
Qed.
Lemma g_values subs : forall d0 d d', grows d0 d -> describe_values subs d = Ok d' -> grows d0 d'.
Proof.
  induction subs as [|s subs IH]; cbn; intros d0 d d' G H; [injection H as <-; exact G|].
  destruct (s [] VNone) as [b|]; [|discriminate]. cbn in H. eapply IH; [|exact H]. now apply g_append.
Qed.

Lemma describe_type_grows E repr sub subs ft l d d' :
  is_block d -> describe_type E repr sub subs ft l d = Ok d' -> grows d d'.
Proof.
  intros B H. assert (R := g_refl d B). unfold describe_type in H.
  assert (HB : forall sep test shown low high, describe_bounds sep test shown low high l d = Ok d' -> grows d d').
  { unfold describe_bounds. intros sep test shown low high HH.
    destruct (two_constraints test shown low high _ _); [|discriminate]. cbn in HH. injection HH as <-.
    now apply g_constraints. }
  repeat match type of H with
         | (if str_eqb ft ?t then _ else _) = _ => destruct (str_eqb ft t)
         end.
  - eapply HB, H.
  - unfold describe_datetime in H. destruct (two_constraints _ _ _ _ _ _); [|discriminate].
    cbn [bind] in H. injection H as <-. now apply g_constraints.
  - eapply HB, H.
  - unfold describe_enumeration in H.
    destruct (is_none _); [|injection H as <-; exact R].
    destruct (sget _ _); [|discriminate]. destruct (py_iter _); [|discriminate].
    destruct (each _ _); [|discriminate]. cbn [bind] in H. injection H as <-. now apply g_set.
  - eapply HB, H.
  - eapply HB, H.
  - unfold describe_map in H.
    match type of H with bind ?r _ = _ => destruct r as [d1|] eqn:H1; [|discriminate] end. cbn [bind] in H.
    assert (G1 : grows d d1).
    { destruct (truthy _); [|injection H1 as <-; exact R]. destruct (py_iter _); [|discriminate].
      destruct (sort_items _ _); [|discriminate]. cbn [bind] in H1. injection H1 as <-. now apply g_set. }
    match type of H with bind ?r _ = _ => destruct r as [key|] eqn:H2; [|discriminate] end. cbn [bind] in H.
    destruct (sget $"value" l) as [value|]; [|discriminate].
    assert (HV : forall vl,
      (if truthy (dict_get $"structural" vl) || truthy (dict_get $"description" vl)
       then do b <- sub $"value" [] key; Ok (append b d1)
       else do t <- subscript $"fieldtype" value;
            Ok (set_param $"subtype" (VStr (arg_text E key ++ $": " ++ arg_text E t)) d1)) = Ok d' -> grows d d').
    { intros vl HH. destruct (_ || _).
      - destruct (sub $"value" [] key); [|discriminate]. cbn [bind] in HH. injection HH as <-. now apply g_append.
      - destruct (subscript $"fieldtype" value); [|discriminate]. cbn [bind] in HH. injection HH as <-. now apply g_set. }
    destruct value; try discriminate; eapply HV, H.
  - unfold describe_sequence in H. destruct (two_constraints _ _ _ _ _ _); [|discriminate]. cbn [bind] in H.
    destruct (sub _ _ _); [|discriminate]. cbn [bind] in H. injection H as <-.
    apply g_append, g_constraints. destruct (truthy _); [now apply g_set|exact R].
  - unfold describe_structure_block in H. destruct (truthy _); [|injection H as <-; exact R].
    destruct (truthy _); [|discriminate]. destruct (subscript _ _); [|discriminate]. cbn [bind] in H.
    destruct (as_dict _); [|discriminate]. destruct (sort_items _ _); discriminate.
  - unfold describe_text in H. destruct (two_constraints _ _ _ _ _ _); [|discriminate]. cbn [bind] in H.
    destruct (truthy (dict_get $"pattern" l)); injection H as <-; [apply g_set; [reflexivity|]|]; now apply g_constraints.
  - eapply HB, H.
  - destruct (truthy _); [|injection H as <-; exact R].
    destruct (dict_get $"values" l); try discriminate; eapply g_values; eauto.
  - destruct (truthy _); [discriminate|]. injection H as <-; exact R.
  - injection H as <-; exact R.
Qed.

Lemma in_opt (c : bool) (n : str) (w : val) k v :
  In (k, v) (if c then [(n, w)] else []) <-> c = true /\ k = n /\ v = w.
Proof.
  destruct c; cbn; [|intuition discriminate].
  split; [intros [H|[]]; now injection H as <- <- | intros (_ & -> & ->); now left].
Qed.
Lemma in_nopt (c : bool) (n : str) (w : val) k v :
  In (k, v) (if c then [] else [(n, w)]) <-> c = false /\ k = n /\ v = w.
Proof.
  destruct c; cbn; [intuition discriminate|].
  split; [intros [H|[]]; now injection H as <- <- | intros (_ & -> & ->); now left].
Qed.

Lemma noted_get k l : dict_get k l = noted k l.
Proof. reflexivity. Qed.

Lemma is_none_true v : is_none v = true <-> v = VNone.
Proof. destruct v; cbn; intuition discriminate. Qed.
Lemma is_none_false v : is_none v = false <-> v <> VNone.
Proof. destruct v; cbn; intuition discriminate. Qed.

Lemma in_common repr role sectional type l k v :
  In (k, v) (common_params repr role sectional type l) <->
  (sectional = true /\ k = $"sectional" /\ v = VStr [])
  \/ (k = $"type" /\ v = type)
  \/ (truthy (noted $"description" l) = true /\ k = $"description" /\ v = noted $"description" l)
  \/ (truthy (noted $"notes" l) = true /\ k = $"notes" /\ v = noted $"notes" l)
  \/ (truthy (noted $"nonnull" l) = true /\ k = $"nonnull" /\ v = VStr [])
  \/ (truthy (noted $"ignore_null" l) = true /\ k = $"ignore_null" /\ v = VStr [])
  \/ ((truthy (noted $"required" l) = true /\ role <> Some $"schema") /\ k = $"required" /\ v = VStr [])
  \/ (noted $"constant" l <> VNone /\ k = $"constant" /\ v = VStr (repr (noted $"constant" l)))
  \/ (noted $"default" l <> VNone /\ k = $"default" /\ v = VStr (repr (noted $"default" l)))
  \/ (noted $"title" l <> VNone /\ k = $"title" /\ v = noted $"title" l).
Proof.
  unfold common_params, flag_roles. cbn [flat_map fst snd]. rewrite !app_nil_r.
  repeat rewrite in_app_iff. repeat rewrite in_opt. repeat rewrite in_nopt.
  repeat rewrite is_none_false. rewrite !noted_get.
  assert (HR : negb (match role with Some r => smem r [] | None => false end) = true) by now destruct role.
  assert (HS : negb (match role with Some r => smem r [$"schema"] | None => false end) = true <-> role <> Some $"schema").
  { destruct role as [r|]; [|intuition discriminate]. unfold smem; cbn [existsb]. rewrite orb_false_r.
    destruct (str_eqb_spec r $"schema") as [->|N]; cbn; [intuition discriminate|]. split; [|reflexivity].
    intros _ H. injection H as H. contradiction. }
  rewrite HR, !andb_true_r, andb_true_iff, HS.
  assert (HT : In (k, v) [($"type", type)] <-> k = $"type" /\ v = type).
  { split; [intros [H|[]]; now injection H as <- <- | intros (-> & ->); now left]. }
  rewrite HT. rewrite !or_assoc; reflexivity.
Qed.

Lemma document_block E repr role sectional v l name key d :
  as_dict v = Some l -> document E repr role sectional v name key = Ok d ->
  exists t q content,
    sget $"fieldtype" l = Some t
    /\ d = Block $"field" [name]
             (common_params repr role sectional
                (if truthy key then VStr (arg_text E key ++ $": " ++ arg_text E t) else t) l ++ q) content
    /\ forall k v, In (k, v) q -> extra k.
Proof.
  intros A H. rewrite (document_dict _ _ _ _ _ _ _ _ A) in H. unfold level in H.
  destruct (sget $"fieldtype" l) as [t|] eqn:T; [|discriminate]. exists t.
  set (d0 := Block $"field" [name] (common_params repr role sectional
                (if truthy key then VStr (arg_text E key ++ $": " ++ arg_text E t) else t) l) []) in H.
  assert (G : grows d0 d).
  { destruct t; try discriminate H; (eapply describe_type_grows; [|exact H]; exact I). }
  unfold d0 in G. destruct d as [n a p c|]; [|contradiction].
  destruct G as (-> & -> & (q & -> & Q) & _). exists q, c. auto.
Qed.

Lemma documented_params E repr role sectional v l name key d k w :
  as_dict v = Some l -> document E repr role sectional v name key = Ok d -> ~ extra k ->
  shows_param k d (Some w) <->
  exists t, sget $"fieldtype" l = Some t
  /\ In (k, w) (common_params repr role sectional
               (if truthy key then VStr (arg_text E key ++ $": " ++ arg_text E t) else t) l).
Proof.
  intros A H X. destruct (document_block _ _ _ _ _ _ _ _ _ A H) as (t & q & c & T & -> & Q). cbn [shows_param].
  rewrite in_app_iff. split.
  - intros [I|I]; [exists t; auto|]. exfalso. exact (X (Q _ _ I)).
  - intros (t' & T' & I). rewrite T in T'. injection T' as <-. now left.
Qed.

Lemma not_extra k : smem k [$"constraints"; $"values"; $"required_keys"; $"subtype"; $"unique"; $"pattern"] = false -> ~ extra k.
Proof. intros H I. apply smem_In in I. unfold smem in *. rewrite H in I. discriminate. Qed.

Lemma lit_neq (a b : str) : str_eqb a b = false -> a = b -> False.
Proof. intros F ->. now rewrite str_eqb_refl in F. Qed.

Ltac fin :=
  solve [assumption | reflexivity
        | intros [F G]; first [contradiction | match type of F with lit ?a = lit ?b => exact (lit_neq (lit a) (lit b) eq_refl F) end]
        | intros F; match goal with H : ~ (_ /\ _) |- _ => apply H; split; [reflexivity|exact F] end].
Ltac pick := first [solve [repeat apply conj; fin] | left; solve [repeat apply conj; fin] | right; pick].
Ltac named :=
  split; intros HH;
  [repeat match type of HH with _ \/ _ => destruct HH as [HH|HH] end;
   repeat match goal with H : _ /\ _ |- _ => destruct H end;
   first [exfalso; match goal with H : lit ?a = lit ?b |- _ => exact (lit_neq (lit a) (lit b) eq_refl H) end
         | subst; pick]
  | repeat match goal with H : _ /\ _ |- _ => destruct H end; subst; pick].

(** @prop C86 The documentation of a description is a directive "field" with the given name.  Its
    parameters tell the type (behind the type of the keys, if one is given), the description and the
    notes if there are any, the flags that hold ("required" not in the role "schema"), and the
    constant, the default and the title exactly if the description has them; nothing else is said
    under these names. *)
Lemma document_says :
  forall E repr role sectional v l name key d,
    as_dict v = Some l -> document E repr role sectional v name key = Ok d ->
    (exists params content, d = Block $"field" [name] params content)
    /\ (exists t, sget $"fieldtype" l = Some t /\ forall w,
          shows_param $"type" d (Some w)
          <-> w = if truthy key then VStr (arg_text E key ++ $": " ++ arg_text E t) else t)
    /\ (forall w, shows_param $"sectional" d (Some w) <-> sectional = true /\ w = VStr [])
    /\ (forall name w, In name [$"description"; $"notes"] ->
          (shows_param name d (Some w) <-> truthy (noted name l) = true /\ w = noted name l))
    /\ (forall name w, In name [$"nonnull"; $"ignore_null"; $"required"] ->
          (shows_param name d (Some w)
           <-> truthy (noted name l) = true /\ ~ (name = $"required" /\ role = Some $"schema") /\ w = VStr []))
    /\ (forall name w, In name [$"constant"; $"default"] ->
          (shows_param name d (Some w) <-> noted name l <> VNone /\ w = VStr (repr (noted name l))))
    /\ (forall w, shows_param $"title" d (Some w) <-> noted $"title" l <> VNone /\ w = noted $"title" l).
Proof.
  intros E repr role sectional v l name key d A H.
  destruct (document_block _ _ _ _ _ _ _ _ _ A H) as (t & q & c & T & D & _).
  assert (P : forall k w, smem k [$"constraints"; $"values"; $"required_keys"; $"subtype"; $"unique"; $"pattern"] = false ->
    (shows_param k d (Some w) <->
     In (k, w) (common_params repr role sectional
               (if truthy key then VStr (arg_text E key ++ $": " ++ arg_text E t) else t) l))).
  { intros k w X. rewrite (documented_params _ _ _ _ _ _ _ _ _ k w A H (not_extra k X)). split.
    - intros (t' & T' & I). rewrite T in T'. injection T' as <-. exact I.
    - intros I. exists t. auto. }
  assert (Q := fun k w X => iff_trans (P k w X) (in_common repr role sectional _ l k w)).
  split; [subst d; eauto|].
  split; [exists t; split; [exact T|]|].
  { intros w. rewrite (Q $"type" w eq_refl). named. }
  split; [intros w; rewrite (Q $"sectional" w eq_refl); named|].
  split; [intros k w [<-|[<-|[]]]; [rewrite (Q $"description" w eq_refl)|rewrite (Q $"notes" w eq_refl)];
          named|].
  split; [intros k w [<-|[<-|[<-|[]]]];
          [rewrite (Q $"nonnull" w eq_refl)|rewrite (Q $"ignore_null" w eq_refl)|rewrite (Q $"required" w eq_refl)];
          named|].
  split; [intros k w [<-|[<-|[]]]; [rewrite (Q $"constant" w eq_refl)|rewrite (Q $"default" w eq_refl)];
          named|].
  intros w; rewrite (Q $"title" w eq_refl); named.
Qed.
(** @example
Example C86_document_says_example :
  let l := [(VStr $"fieldtype", VStr $"integer"); (VStr $"description", VStr $"How many.");
            (VStr $"required", VBool true); (VStr $"default", VInt 3); (VStr $"minimum", VInt 0)] in
  let repr := fun v => match v with VInt z => Z_text z | _ => [] end in
  document env0 repr None false (VDict false l) $"count" VNone
  = Ok (Block $"field" [$"count"]
          [($"type", VStr $"integer"); ($"description", VStr $"How many."); ($"required", VStr []);
           ($"default", VStr $"3"); ($"constraints", VStr $"min=0")] [])
  /\ document env0 repr (Some $"schema") true (VDict false l) $"count" (VStr $"text")
  = Ok (Block $"field" [$"count"]
          [($"sectional", VStr []); ($"type", VStr $"text: integer"); ($"description", VStr $"How many.");
           ($"default", VStr $"3"); ($"constraints", VStr $"min=0")] []).
Proof. split; vm_compute; reflexivity. Qed.
@end *)

(** ** What is particular to a class *)

Lemma special_common repr role sectional type l :
  filter (fun nv : str * val => existsb (str_eqb (fst nv)) special) (common_params repr role sectional type l) = [].
Proof.
  destruct (filter _ _) as [|[k v] r] eqn:F; [reflexivity|]. exfalso.
  assert (I : In (k, v) ((k, v) :: r)) by now left. rewrite <- F in I. apply filter_In in I as [I S].
  cbn [fst] in S. apply in_common in I.
  repeat match type of I with _ \/ _ => destruct I as [I|I] end;
    repeat match goal with H : _ /\ _ |- _ => destruct H end; subst k; vm_compute in S; discriminate.
Qed.

Lemma part_set k v d : is_block d -> smem k special = true ->
  particulars (set_param k v d) = particulars d ++ [(k, v)] /\ inside (set_param k v d) = inside d /\ is_block (set_param k v d).
Proof.
  intros B S. destruct d as [n a p c|]; [|contradiction]. cbn [set_param particulars inside is_block].
  rewrite filter_app. cbn [filter fst]. unfold smem in S. rewrite S. auto.
Qed.
Lemma part_append x d : is_block d ->
  particulars (append x d) = particulars d /\ inside (append x d) = inside d ++ [x] /\ is_block (append x d).
Proof. intros B. destruct d as [n a p c|]; [|contradiction]. cbn [append particulars inside is_block]. auto. Qed.
Lemma part_constraints sep cs d : is_block d ->
  particulars (set_constraints sep cs d) = particulars d ++ restricts sep cs
  /\ inside (set_constraints sep cs d) = inside d /\ is_block (set_constraints sep cs d).
Proof.
  intros B. destruct cs as [|c cs]; cbn [set_constraints restricts]; [rewrite app_nil_r; auto|].
  now apply part_set.
Qed.

(** The directive a formatter starts with. *)
Lemma document_starts E repr role sectional v l name key t :
  as_dict v = Some l -> sget $"fieldtype" l = Some (VStr t) ->
  exists d0, is_block d0 /\ particulars d0 = [] /\ inside d0 = []
  /\ document E repr role sectional v name key
     = describe_type E repr
        (fun k => match sget k l with
                  | Some v => document E repr role false v
                  | None => fun _ _ => py TypeError
                  end)
        (fun k => match sget k l with
                  | Some (VList xs) | Some (VTuple xs) => map (document E repr role false) xs
                  | _ => []
                  end) t l d0.
Proof.
  intros A T. rewrite (document_dict _ _ _ _ _ _ _ _ A). unfold level. rewrite T. cbn [arg_text].
  eexists. split; [|split; [|split; [|reflexivity]]]; [exact I|apply special_common|reflexivity].
Qed.

Lemma constraint_present show label v c :
  constraint present (fun v => match v with VTuple _ => outside | _ => Ok (show v) end) label v = Ok c ->
  c = if is_none v then [] else [label ++ show v].
Proof. unfold constraint, present. destruct v; cbn; intros H; try discriminate; injection H as <-; reflexivity. Qed.

Lemma two_present repr low high lo hi c :
  two_constraints present (shown_r repr) low high lo hi = Ok c -> c = labelled repr low high lo hi.
Proof.
  unfold two_constraints, shown_r. intros H.
  destruct (constraint _ _ low lo) as [a|] eqn:A; [|discriminate]. cbn [bind] in H.
  destruct (constraint _ _ high hi) as [b|] eqn:B; [|discriminate]. cbn [bind] in H. injection H as <-.
  apply constraint_present in A. apply constraint_present in B. subst. reflexivity.
Qed.

(** @prop C87 The documentation of an integer or of a float states exactly the bounds of its
    description, the minimum as "min=" and the maximum as "max=", and nothing else that is particular
    to a class.  Missing: decimals, dates, times and datetimes, for which this is false. *)
Lemma number_bounds_documented_partial :
  forall E repr role sectional v l name key d t sep,
    as_dict v = Some l -> sget $"fieldtype" l = Some (VStr t) ->
    In (t, sep) [($"integer", $", "); ($"float", $" ")] ->
    document E repr role sectional v name key = Ok d ->
    particulars d = restricts sep (labelled repr $"min=" $"max=" (noted $"minimum" l) (noted $"maximum" l))
    /\ inside d = [].
Proof.
  intros E repr role sectional v l name key d t sep A T I H.
  destruct (document_starts E repr role sectional v l name key t A T) as (d0 & B & P & C & D).
  rewrite D in H. clear D.
  assert (G : describe_bounds sep present (shown_r repr) $"min=" $"max=" l d0 = Ok d).
  { destruct I as [I|[I|[]]]; injection I as <- <-; exact H. }
  unfold describe_bounds in G. destruct (two_constraints _ _ _ _ _ _) as [c|] eqn:W; [|discriminate].
  cbn [bind] in G. injection G as <-. apply two_present in W. subst c.
  destruct (part_constraints sep (labelled repr $"min=" $"max=" (dict_get $"minimum" l) (dict_get $"maximum" l)) d0 B) as (Q & R & _).
  rewrite Q, R, P, C. auto.
Qed.
(** @example
Example C87_numbers_example :
  let repr := fun v => match v with VInt z => Z_text z | _ => [] end in
  let l := [(VStr $"fieldtype", VStr $"integer"); (VStr $"minimum", VInt (-1)); (VStr $"maximum", VInt 9)] in
  exists d, document env0 repr None false (VDict false l) $"a" VNone = Ok d
    /\ particulars d = [($"constraints", VStr $"min=-1, max=9")] /\ inside d = [].
Proof. eexists. split; [vm_compute; reflexivity|]. split; vm_compute; reflexivity. Qed.
@end *)

(** @prop C87 The documentation of a text states the lengths that are numbers, that the text is not
    stripped, and the pattern, exactly as its description has them. *)
Lemma text_documented :
  forall E repr role sectional v l name key d,
    as_dict v = Some l -> sget $"fieldtype" l = Some (VStr $"text") ->
    document E repr role sectional v name key = Ok d ->
    let length label w := match w with
                          | VInt _ | VFloat _ | VBool _ => [label ++ repr w]
                          | _ => []
                          end in
    particulars d
    = restricts $", " (length $"min_length=" (noted $"min_length" l)
                       ++ length $"max_length=" (noted $"max_length" l)
                       ++ match sget $"strip" l with
                          | Some w => if truthy w then [] else [$"strip=false"]
                          | None => []
                          end)
      ++ (if truthy (noted $"pattern" l) then [($"pattern", noted $"pattern" l)] else [])
    /\ inside d = [].
Proof.
  intros E repr role sectional v l name key d A T H length.
  destruct (document_starts E repr role sectional v l name key _ A T) as (d0 & B & P & C & D).
  rewrite D in H. clear D. change (describe_text repr l d0 = Ok d) in H. unfold describe_text in H.
  assert (K : forall label w, constraint a_number (fun v => Ok (repr v)) label w = Ok (length label w)).
  { intros label w. destruct w; reflexivity. }
  unfold two_constraints in H. rewrite !K in H. cbn [bind] in H.
  match type of H with context [set_constraints _ ?c d0] => set (cs := c) in H end.
  assert (CS : cs = length $"min_length=" (noted $"min_length" l)
                       ++ length $"max_length=" (noted $"max_length" l)
                       ++ match sget $"strip" l with
                          | Some w => if truthy w then [] else [$"strip=false"]
                          | None => []
                          end).
  { unfold cs. rewrite <- app_assoc. f_equal. f_equal. destruct (sget $"strip" l) as [w|]; [destruct (truthy w)|]; reflexivity. }
  rewrite <- CS. clear CS. clearbody cs. change (noted $"pattern" l) with (dict_get $"pattern" l).
  destruct (part_constraints $", " cs d0 B) as (Q & R & S).
  destruct (truthy (dict_get $"pattern" l)); injection H as <-.
  - destruct (part_set $"pattern" (dict_get $"pattern" l) _ S eq_refl) as (Q' & R' & _).
    rewrite Q', R', Q, R, P, C. auto.
  - rewrite Q, R, P, C, app_nil_r. auto.
Qed.
(** @example
Example C87_text_example :
  let repr := fun v => match v with VInt z => Z_text z | _ => [] end in
  let l := [(VStr $"fieldtype", VStr $"text"); (VStr $"max_length", VInt 9); (VStr $"strip", VBool false);
            (VStr $"pattern", VStr $"^a")] in
  exists d, document env0 repr None false (VDict false l) $"a" VNone = Ok d
    /\ particulars d = [($"constraints", VStr $"max_length=9, strip=false"); ($"pattern", VStr $"^a")].
Proof. eexists. split; vm_compute; reflexivity. Qed.
@end *)

(** @prop C87 The documentation of a sequence states that it is unique and its lengths, exactly as its
    description has them. *)
Lemma sequence_lengths_documented :
  forall E repr role sectional v l name key d,
    as_dict v = Some l -> sget $"fieldtype" l = Some (VStr $"sequence") ->
    (forall w, w = noted $"min_length" l \/ w = noted $"max_length" l -> w = VNone \/ exists z, w = VInt z) ->
    document E repr role sectional v name key = Ok d ->
    let length label w := match w with VInt z => [label ++ Z_text z] | _ => [] end in
    particulars d
    = (if truthy (noted $"unique" l) then [($"unique", VStr [])] else [])
      ++ restricts $", " (length $"min=" (noted $"min_length" l) ++ length $"max=" (noted $"max_length" l)).
Proof.
  intros E repr role sectional v l name key d A T L H length.
  destruct (document_starts E repr role sectional v l name key _ A T) as (d0 & B & P & C & D).
  rewrite D in H. clear D. match type of H with describe_type _ _ ?s _ _ _ _ = _ => set (sub := s) in H end.
  change (Doc.describe_sequence E repr (sub $"item") l d0 = Ok d) in H. unfold Doc.describe_sequence in H.
  assert (K : forall label w, w = noted $"min_length" l \/ w = noted $"max_length" l ->
            constraint present (shown_d E repr) label w = Ok (length label w)).
  { intros label w W. destruct (L w W) as [->|[z ->]]; reflexivity. }
  unfold two_constraints in H. rewrite !K in H by (unfold dict_get, noted; tauto). cbn [bind] in H.
  destruct (sub $"item" [] VNone) as [b|]; [|discriminate]. cbn [bind] in H. injection H as <-.
  set (d1 := if truthy (dict_get $"unique" l) then _ else d0).
  assert (D1 : is_block d1 /\ particulars d1 = (if truthy (noted $"unique" l) then [($"unique", VStr [])] else [])).
  { unfold d1. change (noted $"unique" l) with (dict_get $"unique" l). destruct (truthy (dict_get $"unique" l)).
    - destruct (part_set $"unique" (VStr []) d0 B eq_refl) as (Q & _ & R). rewrite Q, P. auto.
    - auto. }
  destruct D1 as [B1 P1]. clearbody d1.
  match goal with |- context [set_constraints ?s ?c d1] => destruct (part_constraints s c d1 B1) as (Q & _ & S) end.
  destruct (part_append b _ S) as (Q' & _ & _). rewrite Q', Q, P1. reflexivity.
Qed.
(** @example
Example C87_sequence_example :
  let l := [(VStr $"fieldtype", VStr $"sequence"); (VStr $"max_length", VInt 9); (VStr $"unique", VBool true);
            (VStr $"item", VDict false [(VStr $"fieldtype", VStr $"boolean")])] in
  exists d, document env0 (fun _ => []) None false (VDict false l) $"a" VNone = Ok d
    /\ particulars d = [($"unique", VStr []); ($"constraints", VStr $"max=9")].
Proof. eexists. split; vm_compute; reflexivity. Qed.
@end *)

(** @prop C87 The maximum of a decimal is documented as a second minimum. *)
Lemma decimal_bounds_refuted :
  exists E repr f l d,
    describe E 2 false f = Ok (VDict false l)
    /\ noted $"maximum" l = VStr $"3"
    /\ document E repr None false (VDict false l) $"a" VNone = Ok d
    /\ particulars d <> restricts $", " (labelled repr $"min=" $"max=" (noted $"minimum" l) (noted $"maximum" l)).
Proof.
  exists env0, (fun v => match v with VStr s => s | _ => [] end), (Fld p0 (KDecimal None (Some (DFin false 3 0)))).
  eexists _, _. split; [vm_compute; reflexivity|]. split; [vm_compute; reflexivity|].
  split; [vm_compute; reflexivity|]. vm_compute. discriminate.
Qed.

(** @prop C87 Instead, what the documentation of a decimal states is both bounds as "min=". *)
Lemma decimal_bounds_as_they_are :
  forall E repr role sectional v l name key d,
    as_dict v = Some l -> sget $"fieldtype" l = Some (VStr $"decimal") ->
    document E repr role sectional v name key = Ok d ->
    particulars d = restricts $", " (labelled repr $"min=" $"min=" (noted $"minimum" l) (noted $"maximum" l))
    /\ inside d = [].
Proof.
  intros E repr role sectional v l name key d A T H.
  destruct (document_starts E repr role sectional v l name key _ A T) as (d0 & B & P & C & D).
  rewrite D in H. clear D.
  assert (G : describe_bounds $", " present (shown_r repr) $"min=" $"min=" l d0 = Ok d) by exact H.
  unfold describe_bounds in G. destruct (two_constraints _ _ _ _ _ _) as [c|] eqn:W; [|discriminate].
  cbn [bind] in G. injection G as <-. apply two_present in W. subst c.
  destruct (part_constraints $", " (labelled repr $"min=" $"min=" (dict_get $"minimum" l) (dict_get $"maximum" l)) d0 B) as (Q & R & _).
  rewrite Q, R, P, C. auto.
Qed.
(** @example
Example C87_decimal_example :
  let repr := fun v => match v with VStr s => s | _ => [] end in
  let l := [(VStr $"fieldtype", VStr $"decimal"); (VStr $"minimum", VStr $"1"); (VStr $"maximum", VStr $"3")] in
  exists d, document env0 repr None false (VDict false l) $"a" VNone = Ok d
    /\ particulars d = [($"constraints", VStr $"min=1, min=3")].
Proof. eexists. split; vm_compute; reflexivity. Qed.
@end *)

(** ** Documentation of descriptions *)

Lemma put_all_from desc l : forall acc r, put_all desc l acc = Ok r -> forall key w, aget key r = Some w ->
  (aget key acc = Some w /\ ~ exists v, aget key l = Some v /\ exists u, describe_parameter desc v = Ok u)
  \/ exists v, In (key, v) l /\ describe_parameter desc v = Ok w.
Proof.
  induction l as [|[a v] l IH]; intros acc r H key w G.
  - apply Ok_inj in H. subst r. left. split; [exact G|]. intros (v & X & _). discriminate.
  - cbn [put_all] in H. cbn [aget]. destruct (describe_parameter desc v) as [x|[e|x]] eqn:V; [| discriminate |].
    + destruct (IH _ _ H key w G) as [[A N]|(u & U & D)]; [|right; exists u; split; [now right|exact D]].
      destruct (str_eqb_spec key a) as [->|Hne].
      * rewrite aset_get_same in A. injection A as ->. right. exists v. split; [now left|exact V].
      * rewrite aset_get_other in A by exact Hne. left. auto.
    + assert (F : put_all desc l acc = Ok r) by (destruct x; try discriminate H; exact H).
      destruct (IH _ _ F key w G) as [[A N]|(u & U & D)]; [|right; exists u; split; [now right|exact D]].
      destruct (str_eqb_spec key a) as [->|Hne]; [|left; auto].
      left. split; [exact A|]. intros (u & U & y & Y). injection U as <-. congruence.
Qed.

(** Where an entry of a description comes from. *)
Lemma described_entry E m verbose p k l : describe E (S m) verbose (Fld p k) = Ok (VDict false l) ->
  exists given,
    describe_given E (describe E m false) (describe E m verbose)
      (fun g v => process_gen E (describe E m false) (reconstruct E m) m g false Outbound true [] v) p k = Ok given
    /\ forall key w, ~ In key (map fst (p_aspects p)) -> sget key l = Some w ->
       (key = $"fieldtype" /\ w = VStr (kind_type k))
       \/ (In key (map fst (base_parameters ++ class_parameters (cls_of k))) /\ ~ In key (map fst given)
           /\ describe_parameter (describe E m false) (parameter_value E p k key) = Ok w)
       \/ exists v, In (key, v) given /\ describe_parameter (describe E m false) v = Ok w.
Proof.
  intros H. apply describe_unfold in H. destruct H as [given [items [Hg [Hi Hd]]]]. injection Hd as ->.
  exists given. split; [exact Hg|]. intros key w HA. rewrite sget_strs. intros G.
  rewrite items_unfold in Hi. destruct (put_all_from _ _ _ _ Hi key w G) as [[A _]|(v & I & D)].
  - cbn [aget] in A. destruct (str_eqb_spec key $"fieldtype") as [->|]; [|discriminate]. injection A as <-. auto.
  - apply in_app_or in I as [I|I].
    { exfalso. apply filter_In in I as [I _]. apply (in_map fst) in I. exact (HA I). }
    right. apply in_app_or in I as [I|I].
    + left. apply in_flat_map in I as [[s x] [I J]]. unfold picked in J. cbn [fst snd] in J.
      destruct (smem s (map fst given)) eqn:M; [contradiction|].
      destruct (negb _ && _); [|contradiction]. destruct J as [J|[]]. injection J as <- <-.
      split; [apply (in_map fst) in I; exact I|]. split; [apply smem_false, M|exact D].
    + right. apply filter_In in I as [I _]. eauto.
Qed.

Lemma described_type E m verbose p k l : describe E (S m) verbose (Fld p k) = Ok (VDict false l) ->
  ~ In $"fieldtype" (map fst (p_aspects p)) -> sget $"fieldtype" l = Some (VStr (kind_type k)).
Proof.
  intros H A. apply describe_unfold in H. destruct H as [given [items [Hg [Hi Hd]]]]. injection Hd as ->.
  rewrite sget_strs. rewrite items_unfold in Hi. rewrite (put_all_keeps _ _ _ _ Hi); [reflexivity|].
  rewrite !map_app. intros I. apply in_app_or in I as [I|I]; [exact (A (in_keys_filter _ _ _ I))|].
  apply in_app_or in I as [I|I].
  - apply in_map_iff in I as [[a x] [X I]]. cbn in X. subst a.
    apply in_flat_map in I as [[a y] [I X]]. cbn in X. destruct (picked _ _ _ _ _ _); [|contradiction].
    destruct X as [X|[]]. injection X as -> _. apply (in_map fst) in I.
    apply (declared_special (cls_of k) $"fieldtype"); [exact I|]. vm_compute. tauto.
  - apply in_keys_filter in I. apply (proj2 (given_keys _ _ _ _ _ _ _ Hg)) in I.
    repeat (destruct I as [I|I]; [discriminate I|]). contradiction.
Qed.

Lemma unasked_at p s : unasked p -> smem s asked = true -> ~ In s (map fst (p_aspects p)).
Proof. intros U M I. apply (U s I), smem_In, M. Qed.

Lemma time_bound (A : Type) (t : A -> str) lo hi :
  forall key v, In (key, v) (bound $"maximum" t hi ++ bound $"minimum" t lo) -> exists s, v = VStr s.
Proof.
  intros key v I. apply in_app_or in I as [I|I]; [destruct hi|destruct lo]; destruct I as [I|[]] || contradiction I;
    injection I as _ <-; eauto.
Qed.

(** @prop C87 The documentation of a date, a time or a datetime never states its bounds, whatever they
    are: its description tells them as texts, which the generator does not take for dates or times.
    All it states is that a datetime is UTC. *)
Lemma moment_bounds_undocumented :
  forall E repr n verbose p k l role sectional name key d,
    (exists lo hi, k = KDate lo hi) \/ (exists lo hi, k = KTime lo hi)
    \/ (exists lo hi utc, k = KDateTime lo hi utc) ->
    unasked p -> describe E n verbose (Fld p k) = Ok (VDict false l) ->
    document E repr role sectional (VDict false l) name key = Ok d ->
    particulars d = restricts $", " (match k with KDateTime _ _ true => [$"utc=True"] | _ => [] end)
    /\ inside d = [].
Proof.
  intros E repr [|m] verbose p k l role sectional name key d K U H DOC; [discriminate|].
  assert (T := described_type _ _ _ _ _ _ H (unasked_at p $"fieldtype" U eq_refl)).
  destruct (described_entry _ _ _ _ _ _ H) as (given & G & O).
  assert (X : forall s, smem s asked = true -> In s [$"minimum"; $"maximum"] ->
     noted s l = VNone \/ exists t, noted s l = VStr t).
  { intros s S Hs. unfold noted. destruct (sget s l) as [w|] eqn:W; [|auto].
    destruct (O s w (unasked_at p s U S) W) as [[_ ->]|[(_ & N & D)|(v & I & D)]]; [eauto| |].
    - left. destruct K as [(lo & hi & ->)|[(lo & hi & ->)|(lo & hi & utc & ->)]];
        unfold parameter_value, attrs, arg in D;
        (destruct Hs as [<-|[<-|[]]]; destruct (p_preprocessor p); [destruct lo|destruct lo|destruct hi|destruct hi];
         vm_compute in D; first [discriminate D | injection D as <-; reflexivity]).
    - right. assert (Y : exists t, v = VStr t).
      { destruct K as [(lo & hi & ->)|[(lo & hi & ->)|(lo & hi & utc & ->)]]; cbn [describe_given] in G;
          apply Ok_inj in G; subst given; eapply time_bound, I. }
      destruct Y as [t ->]. cbn in D. injection D as <-. eauto. }
  assert (X1 := X $"minimum" eq_refl (or_introl eq_refl)).
  assert (X2 := X $"maximum" eq_refl (or_intror (or_introl eq_refl))).
  destruct (document_starts E repr role sectional (VDict false l) l name key _ eq_refl T) as (d0 & B & P & C & D).
  rewrite D in DOC. clear D O X.
  assert (Z : forall test, test VNone = false -> (forall t, test (VStr t) = false) ->
     two_constraints test (shown_s E) $"min=" $"max=" (dict_get $"minimum" l) (dict_get $"maximum" l) = Ok []).
  { intros test T0 T1. unfold two_constraints, constraint.
    change (dict_get $"minimum" l) with (noted $"minimum" l). change (dict_get $"maximum" l) with (noted $"maximum" l).
    destruct X1 as [->|[t1 ->]], X2 as [->|[t2 ->]]; rewrite ?T0, ?T1; reflexivity. }
  destruct K as [(lo & hi & ->)|[(lo & hi & ->)|(lo & hi & utc & ->)]].
  - change (describe_bounds $", " a_date (shown_s E) $"min=" $"max=" l d0 = Ok d) in DOC. unfold describe_bounds in DOC.
    rewrite Z in DOC by reflexivity. cbn [bind set_constraints] in DOC. apply Ok_inj in DOC. subst d. auto.
  - change (describe_bounds $", " a_time (shown_s E) $"min=" $"max=" l d0 = Ok d) in DOC. unfold describe_bounds in DOC.
    rewrite Z in DOC by reflexivity. cbn [bind set_constraints] in DOC. apply Ok_inj in DOC. subst d. auto.
  - change (describe_datetime E l d0 = Ok d) in DOC. unfold describe_datetime in DOC.
    rewrite Z in DOC by reflexivity. cbn [bind app] in DOC. apply Ok_inj in DOC. subst d.
    assert (UT : truthy (dict_get $"utc" l) = utc).
    { destruct (description_flags E (S m) verbose p _ l $"utc" utc false H (unasked_at p $"utc" U eq_refl)) as [F _]; [constructor|].
      unfold dict_get. rewrite F. destruct verbose, utc; reflexivity. }
    rewrite UT. match goal with |- context [set_constraints ?s ?c d0] => destruct (part_constraints s c d0 B) as (Q & R & _) end.
    rewrite Q, R, P, C. destruct utc; auto.
Qed.
(** @example
Example C87_moments_example :
  let f := Fld p0 (KDateTime (Some (DateTime (Date 2020 1 1) (Tod 0 0 0 0) (Some TzUTC))) None true) in
  exists l d, describe env0 2 false f = Ok (VDict false l) /\ noted $"minimum" l = VStr $"2020-01-01T00:00:00Z"
    /\ document env0 (fun _ => []) None false (VDict false l) $"a" VNone = Ok d
    /\ particulars d = [($"constraints", VStr $"utc=True")].
Proof.
  eexists _, _. split; [vm_compute; reflexivity|]. split; [vm_compute; reflexivity|].
  split; vm_compute; reflexivity.
Qed.
@end *)

(** @prop C87 So the bounds of a date are not documented. *)
Lemma date_bounds_refuted :
  exists E repr f l d,
    describe E 2 false f = Ok (VDict false l)
    /\ noted $"minimum" l = VStr $"2020-01-01"
    /\ document E repr None false (VDict false l) $"a" VNone = Ok d
    /\ particulars d = [].
Proof.
  exists env0, (fun _ => []), (Fld p0 (KDate (Some (Date 2020 1 1)) None)).
  eexists _, _. split; [vm_compute; reflexivity|]. split; [vm_compute; reflexivity|].
  split; vm_compute; reflexivity.
Qed.

Lemma each_texts vs names :
  each (fun x => match x with VStr s => Ok s | _ => py TypeError end) vs = Ok names -> vs = map VStr names.
Proof.
  revert names. induction vs as [|x vs IH]; intros names H; [apply Ok_inj in H; now subst|]. cbn [each] in H.
  destruct x; try discriminate H. cbn [bind] in H.
  destruct (each _ vs) as [r|]; [|discriminate]. cbn [bind] in H. apply Ok_inj in H. subst names. cbn. now rewrite (IH r).
Qed.
Lemma texts_each names :
  each (fun x => match x with VStr s => Ok s | _ => py TypeError end) (map VStr names) = Ok names.
Proof. induction names as [|x l IH]; [reflexivity|]. cbn [map each bind]. rewrite IH. reflexivity. Qed.

(** @prop C88 The documentation of an enumeration without a constant lists its values, texts all of
    them, in alphabetical order. *)
Lemma enumeration_documented :
  forall E repr role sectional v l name key d,
    as_dict v = Some l -> sget $"fieldtype" l = Some (VStr $"enumeration") -> noted $"constant" l = VNone ->
    document E repr role sectional v name key = Ok d ->
    exists vs names sorted, sget $"enumeration" l = Some vs /\ py_iter vs = Some (map VStr names)
      /\ sorted_names names sorted
      /\ particulars d = [($"values", VStr (join $" " sorted))] /\ inside d = [].
Proof.
  intros E repr role sectional v l name key d A T N H.
  destruct (document_starts E repr role sectional v l name key _ A T) as (d0 & B & P & C & D).
  rewrite D in H. clear D. change (describe_enumeration l d0 = Ok d) in H. unfold describe_enumeration in H.
  change (dict_get $"constant" l) with (noted $"constant" l) in H. rewrite N in H. cbn [is_none] in H.
  destruct (sget $"enumeration" l) as [vs|]; [|discriminate]. destruct (py_iter vs) as [xs|] eqn:Y; [|discriminate].
  destruct (each _ xs) as [names|] eqn:EA; [|discriminate]. cbn [bind] in H. apply Ok_inj in H. subst d.
  exists vs, names, (sort_str names). split; [reflexivity|]. apply each_texts in EA. subst xs. split; [exact Y|].
  split; [apply sort_str_sorted|].
  match goal with |- context [set_param ?s ?c d0] => destruct (part_set s c d0 B eq_refl) as (Q & R & _) end.
  rewrite Q, R, P, C. auto.
Qed.
(** @example
Example C88_enumeration_example :
  let l := [(VStr $"fieldtype", VStr $"enumeration"); (VStr $"enumeration", VList [VStr $"b"; VStr $"a"])] in
  exists d, document env0 (fun _ => []) None false (VDict false l) $"x" VNone = Ok d
    /\ particulars d = [($"values", VStr $"a b")].
Proof. eexists. split; vm_compute; reflexivity. Qed.
@end *)

(** @prop C88 The content of the documentation of a sequence is the documentation of its item, that
    of a tuple the documentation of its values in order; neither is named. *)
Lemma items_documented :
  forall E repr role sectional v l name key d,
    as_dict v = Some l -> document E repr role sectional v name key = Ok d ->
    (sget $"fieldtype" l = Some (VStr $"sequence") ->
       exists item b, sget $"item" l = Some item /\ document E repr role false item [] VNone = Ok b
         /\ inside d = [b])
    /\ (sget $"fieldtype" l = Some (VStr $"tuple") ->
        forall vs, sget $"values" l = Some (VList vs) ->
        Forall2 (fun w b => document E repr role false w [] VNone = Ok b) vs (inside d) /\ particulars d = []).
Proof.
  intros E repr role sectional v l name key d A H. split; intros T.
  - destruct (document_starts E repr role sectional v l name key _ A T) as (d0 & B & P & C & D).
    rewrite D in H. clear D. match type of H with describe_type _ _ ?s _ _ _ _ = _ => set (sub := s) in H end.
    change (Doc.describe_sequence E repr (sub $"item") l d0 = Ok d) in H. unfold Doc.describe_sequence in H.
    destruct (two_constraints _ _ _ _ _ _) as [c|]; [|discriminate]. cbn [bind] in H.
    destruct (sub $"item" [] VNone) as [b|] eqn:S; [|discriminate]. cbn [bind] in H. apply Ok_inj in H. subst d.
    unfold sub in S. destruct (sget $"item" l) as [item|]; [|discriminate]. exists item, b.
    split; [reflexivity|]. split; [exact S|].
    set (d1 := if truthy (dict_get $"unique" l) then _ else d0).
    assert (D1 : is_block d1 /\ inside d1 = []).
    { unfold d1. destruct (truthy _); [|auto].
      destruct (part_set $"unique" (VStr []) d0 B eq_refl) as (_ & Q & R). rewrite Q. auto. }
    destruct D1 as [B1 C1]. destruct (part_constraints $", " c d1 B1) as (_ & Q & R).
    destruct (part_append b _ R) as (_ & Q' & _). rewrite Q', Q, C1. reflexivity.
  - intros vs V. destruct (document_starts E repr role sectional v l name key _ A T) as (d0 & B & P & C & D).
    rewrite D in H. clear D. match type of H with describe_type _ _ _ ?s _ _ _ = _ => set (subs := s) in H end.
    change ((if truthy (dict_get $"values" l) then
      match dict_get $"values" l with
      | VList _ | VTuple _ => describe_values (subs $"values") d0
      | _ => py TypeError
      end
    else Ok d0) = Ok d) in H.
    assert (S : subs $"values" = map (document E repr role false) vs) by (unfold subs; rewrite V; reflexivity).
    unfold dict_get in H. rewrite V, S in H. clear S subs.
    assert (G : describe_values (map (document E repr role false) vs) d0 = Ok d) by (destruct vs; exact H).
    clear H. revert G.
    assert (W : exists pre, inside d0 = pre /\ pre = []) by eauto. destruct W as (pre & I & W).
    cut (forall d0, is_block d0 -> particulars d0 = [] ->
         describe_values (map (document E repr role false) vs) d0 = Ok d ->
         exists bs, Forall2 (fun w b => document E repr role false w [] VNone = Ok b) vs bs
                    /\ inside d = inside d0 ++ bs /\ particulars d = []).
    { intros K G. destruct (K d0 B P G) as (bs & F & X & Y). rewrite X, C. auto. }
    clear. induction vs as [|x vs IH]; intros d0 B P G.
    + apply Ok_inj in G. subst d. exists []. rewrite app_nil_r. auto.
    + cbn [map describe_values] in G. destruct (document E repr role false x [] VNone) as [b|] eqn:X; [|discriminate].
      cbn [bind] in G. destruct (part_append b d0 B) as (Q & R & S).
      destruct (IH (append b d0) S (eq_trans Q P) G) as (bs & F & Y & Z).
      exists (b :: bs). split; [constructor; assumption|]. rewrite Y, R, <- app_assoc. auto.
Qed.
(** @example
Example C88_items_example :
  let flag := VDict false [(VStr $"fieldtype", VStr $"boolean")] in
  let l := [(VStr $"fieldtype", VStr $"sequence"); (VStr $"item", flag)] in
  let m := [(VStr $"fieldtype", VStr $"tuple"); (VStr $"values", VList [flag; VDict false l])] in
  let doc v := document env0 (fun _ => []) None false v [] VNone in
  exists b c d, doc flag = Ok b /\ doc (VDict false l) = Ok c /\ inside c = [b]
    /\ doc (VDict false m) = Ok d /\ inside d = [b; c].
Proof. eexists _, _, _. repeat split; vm_compute; reflexivity. Qed.
@end *)

(** @prop C88 The documentation of a map lists its required keys in order and shows the types of its
    keys (text by default) and values, in one line if the value is neither structural nor has a
    description, and by the documentation of the value otherwise. *)
Lemma map_documented :
  forall E repr role sectional v l name key d,
    as_dict v = Some l -> sget $"fieldtype" l = Some (VStr $"map") ->
    document E repr role sectional v name key = Ok d ->
    exists kt value vl shown,
      (if truthy (noted $"key" l) then exists kl, as_dict (noted $"key" l) = Some kl /\ sget $"fieldtype" kl = Some kt
       else kt = VStr $"text")
      /\ sget $"value" l = Some value /\ as_dict value = Some vl
      /\ (truthy (noted $"required_keys" l) = false /\ shown = []
          \/ truthy (noted $"required_keys" l) = true /\ exists ks, shown = [($"required_keys", VStr (repr (VList ks)))]
             /\ forall xs names, noted $"required_keys" l = VList xs -> xs = map VStr names ->
                exists sorted, Permutation names sorted /\ StronglySorted str_le sorted /\ ks = map VStr sorted)
      /\ (truthy (noted $"structural" vl) = false /\ truthy (noted $"description" vl) = false
          /\ inside d = []
          /\ (exists vt, sget $"fieldtype" vl = Some vt
              /\ particulars d = shown ++ [($"subtype", VStr (arg_text E kt ++ $": " ++ arg_text E vt))])
          \/ (truthy (noted $"structural" vl) = true \/ truthy (noted $"description" vl) = true)
          /\ (exists b, document E repr role false value [] kt = Ok b /\ inside d = [b])
          /\ particulars d = shown).
Proof.
  intros E repr role sectional v l name key d A T H.
  destruct (document_starts E repr role sectional v l name key _ A T) as (d0 & B & P & C & D).
  rewrite D in H. clear D. match type of H with describe_type _ _ ?s _ _ _ _ = _ => set (sub := s) in H end.
  change (Doc.describe_map E repr (sub $"value") l d0 = Ok d) in H. unfold Doc.describe_map in H.
  change (dict_get $"required_keys" l) with (noted $"required_keys" l) in H.
  change (dict_get $"key" l) with (noted $"key" l) in H.
  match type of H with bind ?r _ = _ => destruct r as [d1|] eqn:H1; [|discriminate] end. cbn [bind] in H.
  match type of H with bind ?r _ = _ => destruct r as [kt|] eqn:H2; [|discriminate] end. cbn [bind] in H.
  assert (S : exists shown, is_block d1 /\ inside d1 = [] /\ particulars d1 = shown
     /\ (truthy (noted $"required_keys" l) = false /\ shown = []
          \/ truthy (noted $"required_keys" l) = true /\ exists ks, shown = [($"required_keys", VStr (repr (VList ks)))]
             /\ forall xs names, noted $"required_keys" l = VList xs -> xs = map VStr names ->
                exists sorted, Permutation names sorted /\ StronglySorted str_le sorted /\ ks = map VStr sorted)).
  { destruct (truthy (noted $"required_keys" l)) eqn:TR.
    - destruct (py_iter (noted $"required_keys" l)) as [ks|] eqn:I; [|discriminate].
      destruct (sort_items [] _) as [s|] eqn:SO; [|discriminate]. cbn [bind] in H1. apply Ok_inj in H1. subst d1.
      match goal with |- context [set_param ?s ?c d0] => destruct (part_set s c d0 B eq_refl) as (Q & R & Z) end.
      eexists. split; [exact Z|]. split; [rewrite R; exact C|]. split; [rewrite Q, P; reflexivity|].
      right. split; [reflexivity|]. eexists. split; [reflexivity|]. intros xs names NX ->.
      rewrite NX in I. cbn [py_iter] in I. injection I as <-.
      destruct (sort_texts (map (fun k => (k, tt)) (map VStr names)) []) as (r & R1 & R2 & R3).
      { rewrite map_map. apply Forall_forall. intros y Y. apply in_map_iff in Y as (x & <- & _). eexists. reflexivity. }
      { constructor. } { constructor. }
      rewrite SO in R1. apply Ok_inj in R1. subst r. cbn [app] in R2.
      assert (R4 := Permutation_map fst R2). rewrite !map_map in R4. cbn [fst] in R4.
      apply Permutation_sym, Permutation_map_inv in R4. destruct R4 as (sorted & R4 & R5).
      exists sorted. split; [exact R5|]. split; [|exact R4].
      clear - R3 R4. revert sorted R4. induction R3 as [|y s R3 IH F]; intros [|x sorted] R4; try discriminate; [constructor|].
      cbn [map] in R4. injection R4 as X R4. constructor; [apply IH, R4|].
      rewrite Forall_forall in F |- *. intros z Z. assert (Z' : In (VStr z) (map fst s)) by (rewrite R4; now apply in_map).
      apply in_map_iff in Z' as (w & W1 & W2). destruct (F w W2) as (a & b & A1 & A2 & A3).
      rewrite X in A1. rewrite W1 in A2. injection A1 as ->. injection A2 as ->. exact A3.
    - apply Ok_inj in H1. subst d1. exists []. split; [exact B|]. split; [exact C|]. split; [exact P|]. left. auto. }
  destruct S as (shown & B1 & C1 & P1 & S). destruct (sget $"value" l) as [value|] eqn:V; [|discriminate].
  assert (VL : exists vl, as_dict value = Some vl
     /\ (if truthy (dict_get $"structural" vl) || truthy (dict_get $"description" vl) then
            do b <- sub $"value" [] kt; Ok (append b d1)
          else
            do t <- subscript $"fieldtype" value;
            Ok (set_param $"subtype" (VStr (arg_text E kt ++ $": " ++ arg_text E t)) d1)) = Ok d).
  { destruct value; try discriminate H; eexists; (split; [reflexivity|exact H]). }
  destruct VL as (vl & VA & G). clear H. exists kt, value, vl, shown.
  split; [|split; [reflexivity|split; [exact VA|split; [exact S|]]]].
  - destruct (truthy (noted $"key" l)); [|apply Ok_inj in H2; now subst]. unfold subscript in H2.
    destruct (as_dict (noted $"key" l)) as [kl|]; [|discriminate]. exists kl. split; [reflexivity|].
    destruct (sget $"fieldtype" kl); [|discriminate]. apply Ok_inj in H2. now subst.
  - change (dict_get $"structural" vl) with (noted $"structural" vl) in G.
    change (dict_get $"description" vl) with (noted $"description" vl) in G.
    destruct (truthy (noted $"structural" vl) || truthy (noted $"description" vl)) eqn:O.
    + right. apply orb_true_iff in O. split; [exact O|]. destruct (sub $"value" [] kt) as [b|] eqn:SB; [|discriminate].
      cbn [bind] in G. apply Ok_inj in G. subst d. unfold sub in SB. rewrite V in SB.
      destruct (part_append b d1 B1) as (Q & R & _). split; [exists b; rewrite R, C1; auto|congruence].
    + left. apply orb_false_iff in O as [O1 O2]. split; [exact O1|]. split; [exact O2|].
      unfold subscript in G. rewrite VA in G. destruct (sget $"fieldtype" vl) as [vt|]; [|discriminate].
      cbn [bind] in G. apply Ok_inj in G. subst d.
      match goal with |- context [set_param ?s ?c d1] => destruct (part_set s c d1 B1 eq_refl) as (Q & R & _) end.
      split; [congruence|]. exists vt. split; [reflexivity|]. congruence.
Qed.
(** @example
Example C88_map_example :
  let flag := VDict false [(VStr $"fieldtype", VStr $"boolean")] in
  let l := [(VStr $"fieldtype", VStr $"map"); (VStr $"value", flag); (VStr $"required_keys", VList [VStr $"b"; VStr $"a"])] in
  let repr v := match v with VList [VStr a; VStr b] => $"[" ++ a ++ $", " ++ b ++ $"]" | _ => [] end in
  exists d, document env0 repr None false (VDict false l) [] VNone = Ok d
    /\ particulars d = [($"required_keys", VStr $"[a, b]"); ($"subtype", VStr $"text: boolean")].
Proof. eexists. split; vm_compute; reflexivity. Qed.
@end *)

Lemma forall2_each {A B} (g : A -> res B) l ds : each g l = Ok ds -> Forall2 (fun a d => g a = Ok d) l ds.
Proof.
  revert ds. induction l as [|a l IH]; intros ds H; [apply Ok_inj in H; subst; constructor|]. cbn [each] in H.
  destruct (g a) as [d|] eqn:G; [|discriminate]. cbn [bind] in H. destruct (each g l) as [r|]; [|discriminate].
  cbn [bind] in H. apply Ok_inj in H. subst ds. constructor; [exact G|]. now apply IH.
Qed.

Lemma describe_defined E m verbose f d : describe E (S m) verbose f = Ok d ->
  exists p k, (f = Fld p k \/ exists i, f = FUndef i /\ e_undef E i = Some (Fld p k))
              /\ describe E (S m) verbose (Fld p k) = Ok d.
Proof.
  destruct f as [i|p k]; intros H; [|eauto]. cbn [describe] in H.
  destruct (e_undef E i) as [[j|p k]|] eqn:U; try discriminate. exists p, k. split; [eauto|]. exact H.
Qed.

Lemma throughout_at E P f p k : throughout E P f ->
  f = Fld p k \/ (exists i, f = FUndef i /\ e_undef E i = Some (Fld p k)) ->
  P p k /\ forall g, In g (subfields k) -> throughout E P g.
Proof.
  intros [H R] F. assert (K : everywhere P (Fld p k)).
  { destruct F as [->|(i & -> & U)]; [exact H|exact (R i _ U)]. }
  inversion K as [|? ? HP HS]; subst. split; [exact HP|]. intros g G. split; [apply HS, G|exact R].
Qed.

Lemma described_param E n verbose p k l key dflt v :
  describe E n verbose (Fld p k) = Ok (VDict false l) -> ~ In key (map fst (p_aspects p)) ->
  ~ In key [$"maximum"; $"minimum"; $"value"; $"default"; $"key"; $"item"; $"values"; $"fields"; $"polymorphic_on"; $"structure"] ->
  aget key (base_parameters ++ class_parameters (cls_of k)) = Some dflt -> parameter_value E p k key = v ->
  plainv v = true -> is_none v = false -> is_same v dflt = false -> sget key l = Some v.
Proof.
  destruct n as [|m]; [discriminate|]. intros H Ha Hng Hdecl Hval Hp Hn Hs. apply describe_unfold in H.
  destruct H as [given [items [Hg [Hi Hd]]]]. injection Hd as ->. rewrite sget_strs.
  destruct (given_keys _ _ _ _ _ _ _ Hg) as [_ Hkeys]. rewrite items_unfold, put_all_app in Hi.
  destruct (put_all _ (filter _ (p_aspects p)) _) as [r1|] eqn:H1; [|discriminate]. cbn [bind] in Hi. rewrite put_all_app in Hi.
  destruct (put_all _ (flat_map _ _) r1) as [r2|] eqn:H2; [|discriminate]. cbn [bind] in Hi.
  rewrite (put_all_keeps _ _ _ _ Hi key) by (intros Hx; apply in_keys_filter in Hx; apply Hng, Hkeys, Hx).
  apply (put_all_puts _ _ _ _ H2); [apply flat_NoDup, declared_NoDup| |exact Hp].
  rewrite (flat_aget (picked E verbose p k given) _ key _ (declared_NoDup (cls_of k)) Hdecl).
  unfold picked. cbn [fst snd].
  rewrite (proj2 (smem_false key (map fst given))) by (intros Hx; apply Hng, Hkeys, Hx).
  rewrite Hval, Hn, Hs. destruct verbose; reflexivity.
Qed.

(** @prop C88 What is missing or malformed in the description of a map is not documented: keys described
    by something else than a dict are a TypeError, a description of the keys without their type and a map
    without a value are a KeyError. *)
Lemma map_undocumented :
  forall E repr role sectional v l name key,
    as_dict v = Some l -> sget $"fieldtype" l = Some (VStr $"map") -> truthy (noted $"required_keys" l) = false ->
    let out := document E repr role sectional v name key in
    (truthy (noted $"key" l) = true ->
       (as_dict (noted $"key" l) = None -> out = py TypeError)
       /\ forall kl, as_dict (noted $"key" l) = Some kl -> sget $"fieldtype" kl = None -> out = py KeyError)
    /\ (truthy (noted $"key" l) = false -> sget $"value" l = None -> out = py KeyError).
Proof.
  intros E repr role sectional v l name key A T R out.
  destruct (document_starts E repr role sectional v l name key _ A T) as (d0 & _ & _ & _ & D).
  fold out in D. clearbody out. match type of D with _ = describe_type _ _ ?s _ _ _ _ => set (sub := s) in D end.
  change (out = Doc.describe_map E repr (sub $"value") l d0) in D. unfold Doc.describe_map in D.
  change (dict_get $"required_keys" l) with (noted $"required_keys" l) in D.
  change (dict_get $"key" l) with (noted $"key" l) in D. rewrite R in D. cbn [bind] in D. split.
  - intros K. rewrite K in D. unfold subscript in D. split.
    + intros N. rewrite N in D. exact D.
    + intros kl N F. rewrite N, F in D. exact D.
  - intros K V. rewrite K, V in D. exact D.
Qed.

(** @example
Example C88_malformed_example :
  let doc l := document env0 (fun _ => []) None false (VDict false ((VStr $"fieldtype", VStr $"map") :: l)) $"x" VNone in
  doc [(VStr $"key", VStr $"text")] = py TypeError /\ doc [(VStr $"key", VDict false [(VStr $"a", VNone)])] = py KeyError /\ doc [] = py KeyError.
Proof. vm_compute. repeat split. Qed.
@end *)

(** @prop C88 Whatever field can be described can be documented, provided that no structure with
    fields and no union occurs in it, that all its enumerations and required keys are texts, and that
    no aspect has a name that the generator asks for.  Missing: structures and unions, which can never
    be documented. *)
Lemma fields_documented_partial :
  forall E repr n verbose f d role sectional name key,
    throughout E documentable f -> describe E n verbose f = Ok d ->
    exists b, document E repr role sectional d name key = Ok b.
Proof.
  intros E repr. induction n as [|m IH]; intros verbose f d role sectional name key TH H; [discriminate|].
  destruct (describe_defined _ _ _ _ _ H) as (p & k & F & H'). clear H.
  destruct (throughout_at _ _ _ _ _ TH F) as [[U K] SUB]. clear TH F f.
  destruct (descriptions_plain _ _ _ _ _ H') as [_ [l0 ->]]. set (l := strs l0) in *. clearbody l. clear l0.
  assert (T := described_type _ _ _ _ _ _ H' (unasked_at p $"fieldtype" U eq_refl)).
  destruct (described_entry _ _ _ _ _ _ H') as (given & G & O).
  destruct (document_starts E repr role sectional (VDict false l) l name key _ eq_refl T) as (d0 & B & P & C & D).
  assert (GD : exists b, describe_type E repr
        (fun k => match sget k l with
                  | Some v => document E repr role false v
                  | None => fun _ _ => py TypeError
                  end)
        (fun k => match sget k l with
                  | Some (VList xs) | Some (VTuple xs) => map (document E repr role false) xs
                  | _ => []
                  end) (kind_type k) l d0 = Ok b); [|destruct GD as [b GD]; exists b; rewrite D; exact GD].
  clear D. match goal with |- exists b, describe_type _ _ ?s ?t _ _ _ = _ => set (sub := s); set (subs := t) end.
  assert (ONE : forall test shown low high lo hi, (forall v, v = lo \/ v = hi -> test v = true -> exists s, shown v = Ok s) ->
     exists c, two_constraints test shown low high lo hi = Ok c).
  { intros test shown low high lo hi S. unfold two_constraints, constraint.
    destruct (test lo) eqn:T1; [destruct (S lo (or_introl eq_refl) T1) as [s1 ->]|]; cbn [bind];
      (destruct (test hi) eqn:T2; [destruct (S hi (or_intror eq_refl) T2) as [s2 ->]|]; cbn [bind]; eauto). }
  assert (BND : forall sep test shown low high, (forall v, v = dict_get $"minimum" l \/ v = dict_get $"maximum" l -> test v = true -> exists s, shown v = Ok s) ->
     exists b, describe_bounds sep test shown low high l d0 = Ok b).
  { intros sep test shown low high S. unfold describe_bounds. destruct (ONE test shown low high _ _ S) as [c ->]. cbn [bind]. eauto. }
  assert (NT : forall s, smem s asked = true -> (forall v, In (s, v) given -> exists t, v = VStr t) ->
     (forall xs, parameter_value E p k s <> VTuple xs) -> (forall f, parameter_value E p k s <> VField f) ->
     forall xs, dict_get s l <> VTuple xs).
  { intros s S GV NV NF xs. unfold dict_get. destruct (sget s l) as [w|] eqn:W; [|discriminate].
    destruct (O s w (unasked_at p s U S) W) as [[_ ->]|[(_ & _ & Q)|(v & I & Q)]]; [discriminate| |].
    - intros ->. destruct (parameter_value E p k s) eqn:PV; cbn [describe_parameter] in Q; try discriminate Q;
        try (match type of Q with bind ?x _ = _ => destruct x; discriminate Q end);
        first [exact (NF _ eq_refl) | exact (NV _ eq_refl)].
    - destruct (GV v I) as [t ->]. cbn in Q. injection Q as <-. discriminate. }
  assert (PVI : forall s, In s [$"minimum"; $"maximum"; $"min_length"; $"max_length"] ->
     (forall xs, parameter_value E p k s <> VTuple xs) /\ (forall f, parameter_value E p k s <> VField f)).
  { intros s S. destruct k as [ |mn mx| |mn mx|mn mx u|mn mx| |mu ex mn mx| | |mn mx|mn mx| | |it mn mx u| | |pa mn mx st|mn mx| | | | ];
      unfold parameter_value, attrs, arg; destruct (p_preprocessor p);
      (destruct S as [<-|[<-|[<-|[<-|[]]]]]; split; intros x X;
       try destruct mn; try destruct mx; vm_compute in X; discriminate X). }
  assert (BOUNDS : forall s, In s [$"minimum"; $"maximum"] -> forall xs, dict_get s l <> VTuple xs).
  { intros s S. apply NT; [destruct S as [<-|[<-|[]]]; reflexivity| |apply PVI; cbn [In] in *; tauto|apply PVI; cbn [In] in *; tauto].
    intros v I. destruct k as [ |mn mx| |mn mx|mn mx u|mn mx| |mu ex mn mx| | |mn mx|mn mx|value ky rk| |it mn mx u|[fs|on vs] st o| |pa mn mx st|mn mx| |fs|fs| ];
      cbn [describe_given] in G;
      try (apply Ok_inj in G; subst given; first [contradiction I | eapply time_bound, I]);
      exfalso;
      repeat match type of G with
      | bind ?x _ = Ok _ => let Hx := fresh "Hx" in destruct x eqn:Hx; [cbn [bind] in G|discriminate G]
      end; try contradiction K; apply Ok_inj in G; subst given;
      try match goal with Hx : match ky with _ => _ end = Ok _ |- _ => destruct ky as [kf|];
        [destruct (describe E m verbose kf); [|discriminate Hx]|]; apply Ok_inj in Hx; subst end;
      destruct S as [<-|[<-|[]]]; cbn [In app] in I;
      repeat (destruct I as [I|I]; [discriminate I|]); contradiction I. }
  assert (SHOWR : forall v, v = dict_get $"minimum" l \/ v = dict_get $"maximum" l -> exists s, shown_r repr v = Ok s).
  { intros v V. assert (W : forall xs, v <> VTuple xs) by (destruct V as [-> | ->]; apply BOUNDS; cbn [In]; tauto).
    destruct v; try (eexists; reflexivity). exfalso. exact (W _ eq_refl). }
  assert (NESTED : forall g v nm ky, In g (subfields k) -> describe E m verbose g = Ok v -> exists b, document E repr role false v nm ky = Ok b).
  { intros g v nm ky I V. exact (IH verbose g v role false nm ky (SUB g I) V). }
  assert (SUBTYPE : forall g v, In g (subfields k) -> describe E m verbose g = Ok v ->
     exists vl t, v = VDict false vl /\ sget $"fieldtype" vl = Some (VStr t)).
  { intros g v I V. destruct m as [|m']; [discriminate|].
    destruct (describe_defined _ _ _ _ _ V) as (q & kq & F & V'). 
    destruct (throughout_at _ _ _ _ _ (SUB g I) F) as [[UQ _] _].
    destruct (descriptions_plain _ _ _ _ _ V') as [_ [l0 ->]]. eexists _, _. split; [reflexivity|].
    apply (described_type _ _ _ _ _ _ V'). exact (unasked_at q $"fieldtype" UQ eq_refl). }
  destruct k as [ |mn mx| |mn mx|mn mx u|mn mx| |mu ex mn mx|es ig| |mn mx|mn mx|value ky rk| |it mn mx u|[fs|on vs] st o| |pa mn mx st|mn mx| |fs|fs| ];
    cbn [kind_type]; try contradiction K; try (eexists; reflexivity).
  - (* date *) apply (BND $", " a_date (shown_s E) $"min=" $"max="). intros; eexists; reflexivity.
  - (* datetime *) change (exists b, describe_datetime E l d0 = Ok b). unfold describe_datetime.
    destruct (ONE a_datetime (shown_s E) $"min=" $"max=" (dict_get $"minimum" l) (dict_get $"maximum" l)) as [c ->]; [intros; eexists; reflexivity|].
    cbn [bind]. eauto.
  - (* decimal *) apply (BND $", " present (shown_r repr) $"min=" $"min="). auto.
  - (* enumeration *) change (exists b, describe_enumeration l d0 = Ok b). unfold describe_enumeration.
    destruct (is_none _); [|eauto]. destruct K as [names ->].
    assert (X : sget $"enumeration" l = Some (VList (map VStr names))).
    { apply (described_param E (S m) verbose p _ l $"enumeration" VNone _ H' (unasked_at p $"enumeration" U eq_refl)).
      - intros I. repeat (destruct I as [I|I]; [discriminate I|]). contradiction I.
      - reflexivity.
      - unfold parameter_value, attrs, arg. destruct (p_preprocessor p); reflexivity.
      - cbn [plainv]. apply forallb_forall. intros x X. apply in_map_iff in X as (y & <- & _). reflexivity.
      - reflexivity.
      - reflexivity. }
    rewrite X. cbn [py_iter]. rewrite texts_each. cbn [bind]. eauto.
  - (* float *) apply (BND $" " present (shown_r repr) $"min=" $"max="). auto.
  - (* integer *) apply (BND $", " present (shown_r repr) $"min=" $"max="). auto.
  - (* map *) change (exists b, Doc.describe_map E repr (sub $"value") l d0 = Ok b). unfold Doc.describe_map.
    cbn [describe_given] in G.
    match type of G with bind ?x _ = _ => destruct x as [dflt|]; [cbn [bind] in G|discriminate G] end.
    destruct (describe E m verbose value) as [vd|] eqn:VD; [cbn [bind] in G|discriminate G].
    assert (R : exists d1, (if truthy (dict_get $"required_keys" l) then
              match py_iter (dict_get $"required_keys" l) with
              | None => py TypeError
              | Some ks => do s <- sort_items [] (map (fun k => (k, tt)) ks);
                           Ok (set_param $"required_keys" (VStr (repr (VList (map fst s)))) d0)
              end
            else Ok d0) = Ok d1).
    { assert (RK : dict_get $"required_keys" l = VNone \/ exists names, dict_get $"required_keys" l = VList (map VStr names)).
      { unfold dict_get. destruct (sget $"required_keys" l) as [w|] eqn:W; [|auto].
        destruct (O _ w (unasked_at p $"required_keys" U eq_refl) W) as [[X _]|[(_ & _ & Q)|(v & I & Q)]].
        - exfalso. exact (lit_neq $"required_keys" $"fieldtype" eq_refl X).
        - assert (PV : parameter_value E p (KMap value ky rk) $"required_keys" = opt VList rk).
          { unfold parameter_value, attrs, arg. destruct (p_preprocessor p); reflexivity. }
          rewrite PV in Q. destruct rk as [ks|]; [|injection Q as <-; auto]. right.
          destruct (K ks eq_refl) as [names ->]. exists names. cbn [opt] in Q.
          rewrite dp_plain in Q; [injection Q as <-; reflexivity|]. cbn [plainv].
          apply forallb_forall. intros x X. apply in_map_iff in X as (y & <- & _). reflexivity.
        - exfalso. match type of G with bind ?x _ = _ => destruct x as [kd|] eqn:KD; [cbn [bind] in G|discriminate G] end.
          apply Ok_inj in G. subst given. destruct I as [I|[I|I]]; [discriminate I|discriminate I|].
          destruct ky as [kf|]; [destruct (describe E m verbose kf); [|discriminate KD]|]; apply Ok_inj in KD; subst kd;
            [|contradiction I]. destruct I as [I|I]; [discriminate I|contradiction I]. }
      destruct RK as [-> | [names ->]]; [eexists; reflexivity|]. destruct (truthy _); [|eauto]. cbn [py_iter].
      destruct (sort_texts (map (fun k => (k, tt)) (map VStr names)) []) as (r & R1 & _).
      { rewrite map_map. apply Forall_forall. intros y Y. apply in_map_iff in Y as (x & <- & _). eexists. reflexivity. }
      { constructor. } { constructor. }
      rewrite R1. cbn [bind]. eauto. }
    destruct R as [d1 ->]. cbn [bind].
    assert (KT : exists kt, (if truthy (dict_get $"key" l) then subscript $"fieldtype" (dict_get $"key" l) else Ok (VStr $"text")) = Ok kt).
    { destruct ky as [kf|].
      - destruct (describe E m verbose kf) as [kd|] eqn:KD; [|discriminate].
        assert (S := description_nested E m verbose p _ l $"key" kd H' (nested_key _ value kf rk kd KD)).
        unfold dict_get. rewrite S. destruct (SUBTYPE kf kd) as (vl & t & -> & Y); [cbn; auto|exact KD|].
        destruct (truthy _); [|eauto]. unfold subscript. cbn [as_dict]. rewrite Y. eauto.
      - assert (S : truthy (dict_get $"key" l) = false); [|rewrite S; eauto].
        unfold dict_get. destruct (sget $"key" l) as [w|] eqn:W; [|reflexivity]. exfalso.
        destruct (O _ w (unasked_at p $"key" U eq_refl) W) as [[X _]|[(X & _ & Q)|(v & I & Q)]].
        + exact (lit_neq $"key" $"fieldtype" eq_refl X).
        + repeat (destruct X as [X|X]; [discriminate X|]). contradiction X.
        + cbn [bind] in G. apply Ok_inj in G. subst given. destruct I as [I|[I|[]]]; discriminate I. }
    destruct KT as [kt ->]. cbn [bind].
    assert (S := description_nested E m verbose p _ l $"value" vd H' (nested_value _ value ky rk vd VD)).
    destruct (SUBTYPE value vd) as (vl & t & -> & Y); [destruct ky; now left|exact VD|]. rewrite S.
    destruct (_ || _).
    + destruct (NESTED value (VDict false vl) [] kt) as [b NB]; [destruct ky; now left|exact VD|].
      unfold sub. rewrite S, NB. cbn [bind]. eauto.
    + unfold subscript. cbn [as_dict]. rewrite Y. cbn [bind]. eauto.
  - (* sequence *) change (exists b, Doc.describe_sequence E repr (sub $"item") l d0 = Ok b). unfold Doc.describe_sequence.
    cbn [describe_given] in G.
    match type of G with bind ?x _ = _ => destruct x as [dflt|]; [cbn [bind] in G|discriminate G] end.
    destruct (describe E m verbose it) as [vd|] eqn:VD; [cbn [bind] in G|discriminate G]. apply Ok_inj in G.
    assert (LEN : forall s, In s [$"min_length"; $"max_length"] -> dict_get s l = VNone \/ exists z, dict_get s l = VInt z).
    { intros s S. unfold dict_get. destruct (sget s l) as [w|] eqn:W; [|auto].
      destruct (O s w) as [[X _]|[(_ & _ & Q)|(v & I & Q)]].
      - apply (unasked_at p s U). destruct S as [<-|[<-|[]]]; reflexivity.
      - exact W.
      - exfalso. destruct S as [<-|[<-|[]]]; discriminate X.
      - assert (PV : exists o, parameter_value E p (KSequence it mn mx u) s = opt VInt o).
        { unfold parameter_value, attrs, arg. destruct S as [<-|[<-|[]]]; [exists mn|exists mx]; destruct (p_preprocessor p); reflexivity. }
        destruct PV as [[z|] PV]; rewrite PV in Q; injection Q as <-; eauto.
      - exfalso. subst given. destruct I as [I|[I|[]]]; injection I as <- _; destruct S as [S|[S|[]]]; discriminate S. }
    destruct (ONE present (shown_d E repr) $"min=" $"max=" (dict_get $"min_length" l) (dict_get $"max_length" l)) as [c ->].
    { intros v V T'. assert (Z : v = VNone \/ exists z, v = VInt z) by (destruct V as [-> | ->]; apply LEN; cbn [In]; tauto).
      destruct Z as [-> | [z ->]]; [discriminate|]. eexists. reflexivity. }
    cbn [bind].
    assert (S := description_nested E m verbose p _ l $"item" vd H' (nested_item _ it mn mx u vd VD)).
    destruct (NESTED it vd [] VNone) as [b NB]; [cbn; auto|exact VD|].
    unfold sub. rewrite S, NB. cbn [bind]. eauto.
  - (* structure *) subst fs. change (exists b, describe_structure_block l d0 = Ok b). unfold describe_structure_block.
    assert (S := description_nested E m verbose p _ l $"structure" (VDict false []) H' (nested_structure _ [] [] st o (Forall2_nil _))).
    unfold dict_get. rewrite S. exists d0. reflexivity.
  - (* text *) change (exists b, describe_text repr l d0 = Ok b). unfold describe_text.
    destruct (ONE a_number (fun v => Ok (repr v)) $"min_length=" $"max_length=" (dict_get $"min_length" l) (dict_get $"max_length" l)) as [c ->]; [intros; eexists; reflexivity|].
    cbn [bind]. eauto.
  - (* time *) apply (BND $", " a_time (shown_s E) $"min=" $"max="). intros; eexists; reflexivity.
  - (* tuple *) cbn [describe_given] in G. destruct (each (describe E m verbose) fs) as [ds|] eqn:EA; [|discriminate].
    apply forall2_each in EA.
    assert (S := description_nested E m verbose p _ l $"values" (VList ds) H' (nested_values _ fs ds EA)).
    change (exists b, (if truthy (dict_get $"values" l) then
      match dict_get $"values" l with
      | VList _ | VTuple _ => describe_values (subs $"values") d0
      | _ => py TypeError
      end
    else Ok d0) = Ok b).
    assert (SB : subs $"values" = map (document E repr role false) ds) by (unfold subs; rewrite S; reflexivity).
    unfold dict_get. rewrite S, SB.
    cut (exists b, describe_values (map (document E repr role false) ds) d0 = Ok b); [intros X; destruct (truthy (VList ds)); [exact X|eauto]|].
    assert (N : Forall (fun v => exists b, document E repr role false v [] VNone = Ok b) ds).
    { clear - EA NESTED. cbn [subfields] in NESTED. induction EA as [|g v fs ds V EA IH]; [constructor|]. constructor.
      - apply (NESTED g v); [now left|exact V].
      - apply IH. intros g' v' nm ky I. apply NESTED. now right. }
    clear - N. revert d0. induction N as [|v ds [b B] N IH]; intros d0; [eexists; reflexivity|].
    cbn [map describe_values]. rewrite B. cbn [bind]. apply IH.
Qed.
(** @example
Example C88_fields_example :
  let f := Fld p0 (KSequence (Fld p0 (KMap (Fld p0 (KEnumeration [VStr $"b"; VStr $"a"] None)) None None)) None None false) in
  throughout env0 documentable f
  /\ exists d b, describe env0 5 false f = Ok d /\ document env0 (fun _ => []) None false d $"x" VNone = Ok b
     /\ b = Block $"field" [$"x"] [($"type", VStr $"sequence")]
              [Block $"field" [[]] [($"type", VStr $"map"); ($"subtype", VStr $"text: enumeration")] []].
Proof.
  split.
  - split; [|discriminate]. constructor; [split; [intros s []|exact I]|]. intros g [<-|[]].
    constructor; [split; [intros s []|discriminate]|]. intros g [<-|[]].
    constructor; [split; [intros s []|exists [$"b"; $"a"]; reflexivity]|]. intros g [].
  - eexists _, _. split; [vm_compute; reflexivity|]. split; vm_compute; reflexivity.
Qed.
@end *)

Lemma described_given E m verbose p k l given key v : describe E (S m) verbose (Fld p k) = Ok (VDict false l) ->
  describe_given E (describe E m false) (describe E m verbose)
      (fun g v => process_gen E (describe E m false) (reconstruct E m) m g false Outbound true [] v) p k = Ok given ->
  aget key given = Some v -> plainv v = true ->
  (is_none v = false -> sget key l = Some v) /\
  (is_none v = true -> ~ In key (map fst (p_aspects p)) -> key <> $"fieldtype" -> forall w, sget key l = Some w -> w = VNone).
Proof.
  intros H G0 Hd Hp. assert (H0 := H). apply describe_unfold in H.
  destruct H as [given' [items [Hg [Hi He]]]]. rewrite G0 in Hg. apply Ok_inj in Hg. subst given'. injection He as ->.
  rewrite sget_strs. destruct (given_keys _ _ _ _ _ _ _ G0) as [Hnd _]. split.
  - intros Hnone. rewrite items_unfold in Hi. rewrite put_all_app in Hi.
    destruct (put_all _ (filter _ (p_aspects p)) _) as [r1|]; [|discriminate]. cbn [bind] in Hi. rewrite put_all_app in Hi.
    destruct (put_all _ (flat_map _ _) r1) as [r2|]; [|discriminate]. cbn [bind] in Hi.
    apply (put_all_puts _ _ _ _ Hi); [|clear Hi|exact Hp].
    + clear - Hnd. induction given as [|[s x] g IH]; [constructor|]. inversion Hnd as [|? ? Hs Hg]; subst. cbn [filter].
      destruct (verbose || _); [|apply IH, Hg]. cbn. constructor; [|apply IH, Hg]. intros Hx. apply Hs, (in_keys_filter _ _ _ Hx).
    + clear - Hd Hnone. induction given as [|[s x] g IH]; [discriminate|]. cbn [filter snd]. cbn [aget] in Hd.
      destruct (str_eqb_spec key s) as [->|Hne].
      * injection Hd as ->. rewrite Hnone. rewrite Bool.orb_true_r. cbn. rewrite str_eqb_refl. reflexivity.
      * destruct (verbose || negb (is_none x)); [|apply IH, Hd]. cbn. destruct (str_eqb_spec key s); [contradiction|]. apply IH, Hd.
  - intros Hnone Ha Hf w Hw. destruct (described_entry _ _ _ _ _ _ H0) as (g & G & O).
    assert (G0' := G0). rewrite G in G0'. apply Ok_inj in G0'. subst g.
    rewrite <- sget_strs in Hw. destruct (O key w Ha Hw) as [[X _]|[(_ & N & _)|(u & I & Q)]]; [contradiction| |].
    + exfalso. apply N. apply aget_In in Hd. apply (in_map fst) in Hd. exact Hd.
    + assert (u = v) as ->.
      { clear - Hd I Hnd. induction given as [|[s x] g IH]; [contradiction|]. inversion Hnd as [|? ? Hs Hg]; subst. cbn [aget] in Hd.
        destruct (str_eqb_spec key s) as [->|Hne].
        - destruct I as [I|I]; [congruence|]. exfalso. apply Hs. apply (in_map fst) in I. exact I.
        - destruct I as [I|I]; [injection I as -> _; contradiction|]. apply IH; assumption. }
      destruct v; try discriminate. cbn in Q. injection Q as <-. reflexivity.
Qed.

Lemma structure_plain E m verbose l sd : describe_structure (describe E m verbose) l = Ok sd ->
  exists ds, sd = VDict false ds /\ plainv sd = true /\ (l <> [] -> ds <> []).
Proof.
  unfold describe_structure. intros H. destruct (each _ l) as [ds|] eqn:EA; [|discriminate]. cbn [bind] in H. apply Ok_inj in H.
  subst sd. exists ds. split; [reflexivity|]. apply forall2_each in EA. split.
  - cbn [plainv negb andb]. induction EA as [|[s f] [a x] l ds X EA IH]; [reflexivity|]. cbn [forallb snd].
    destruct (describe E m verbose (snd (s, f))) as [y|] eqn:Y; [|discriminate]. cbn [bind] in X. apply Ok_inj in X. injection X as <- <-.
    rewrite (proj1 (descriptions_plain _ _ _ _ _ Y)). exact IH.
  - intros NE ->. inversion EA. congruence.
Qed.

Lemma dset_plain L a x l : plainv x = true -> forallb (fun kv => plainv (snd kv)) l = true ->
  forallb (fun kv : val * val => plainv (snd kv)) (dset L a x l) = true /\ dset L a x l <> [].
Proof.
  intros Hx. induction l as [|[b y] l IH]; intros H; cbn [dset]; [cbn; rewrite Hx; split; [reflexivity|discriminate]|].
  cbn [forallb snd] in H. apply andb_true_iff in H as [H1 H2].
  destruct (veq _ _ _); cbn [forallb snd]; (split; [|discriminate]); [now rewrite Hx, H2|]. rewrite H1. apply IH, H2.
Qed.

(** @prop C88 No structure with fields can be documented: the generator calls a method that does not
    exist. *)
Lemma structures_undocumented :
  forall E repr n verbose p sd strict order d role sectional name key,
    unasked p ->
    match sd with SPlain l => l <> [] | SPoly _ vs => vs <> [] end ->
    describe E n verbose (Fld p (KStructure sd strict order)) = Ok d ->
    (forall b, document E repr role sectional d name key <> Ok b)
    /\ (forall l, sd = SPlain l -> document E repr role sectional d name key = py AttributeError).
Proof.
  intros E repr [|m] verbose p sd strict order d role sectional name key U NE H; [discriminate|].
  destruct (descriptions_plain _ _ _ _ _ H) as [_ [l0 ->]]. set (l := strs l0) in *. clearbody l. clear l0.
  assert (T := described_type _ _ _ _ _ _ H (unasked_at p $"fieldtype" U eq_refl)).
  destruct (document_starts E repr role sectional (VDict false l) l name key _ eq_refl T) as (d0 & _ & _ & _ & D).
  assert (D' : document E repr role sectional (VDict false l) name key = describe_structure_block l d0) by exact D. rewrite D'. clear D D'.
  assert (O : exists x xs, sget $"structure" l = Some (VDict false (x :: xs))
              /\ forall fs, sd = SPlain fs -> truthy (dict_get $"polymorphic_on" l) = false).
  { destruct (described_entry _ _ _ _ _ _ H) as (given & G & _).
    assert (DG := fun key v => described_given _ _ _ _ _ _ given key v H G). destruct sd as [fs|on vs]; cbn [describe_given] in G.
    - destruct (describe_structure _ fs) as [x|] eqn:DS; [|discriminate]. cbn [bind] in G.
      destruct (describe_default _ _ fs _) as [y|]; [|discriminate]. cbn [bind] in G. apply Ok_inj in G. subst given.
      destruct (structure_plain _ _ _ _ _ DS) as (ds & -> & PL & N). destruct ds as [|x xs]; [exfalso; exact (N NE eq_refl)|].
      exists x, xs. split; [apply (proj1 (DG $"structure" _ eq_refl PL)); reflexivity|]. intros _ _.
      unfold dict_get. destruct (sget $"polymorphic_on" l) as [w|] eqn:W; [|reflexivity].
      rewrite (proj2 (DG $"polymorphic_on" VNone eq_refl eq_refl) eq_refl (unasked_at p $"polymorphic_on" U eq_refl)
                 (fun X => lit_neq $"polymorphic_on" $"fieldtype" eq_refl X) w W). reflexivity.
    - match type of G with bind ?x _ = _ => destruct x; [cbn [bind] in G|discriminate G] end.
      destruct (each _ vs) as [ws|] eqn:EA; [|discriminate]. cbn [bind] in G.
      destruct (describe E m verbose on) as [od|] eqn:OD; [|discriminate]. cbn [bind] in G.
      destruct (describe_default _ _ _ _) as [y|]; [|discriminate]. cbn [bind] in G. apply Ok_inj in G. subst given.
      assert (Q : forall ws acc, Forall (fun w => plainv (snd w) = true) ws -> forallb (fun kv : val * val => plainv (snd kv)) acc = true ->
        (ws <> [] \/ acc <> []) ->
        let r := fold_left (fun a x => dset (e_local E) (fst x) (snd x) a) ws acc in
        forallb (fun kv : val * val => plainv (snd kv)) r = true /\ r <> []).
      { clear. induction ws as [|w ws IH]; intros acc F A N; cbn [fold_left].
        - split; [exact A|]. destruct N as [N|N]; [contradiction|exact N].
        - inversion F; subst. apply IH; [assumption|apply dset_plain; assumption|right; apply dset_plain; assumption]. }
      destruct (Q ws []) as [Q1 Q2].
      + apply forall2_each in EA. clear - EA. induction EA as [|v w vs ws X EA IH]; constructor; [|exact IH].
        destruct (slot_serialize _ _ _ _); [|discriminate]. cbn [bind] in X.
        destruct (describe_structure _ _) as [x|] eqn:DS; [|discriminate]. cbn [bind] in X. apply Ok_inj in X. subst w.
        destruct (structure_plain _ _ _ _ _ DS) as (ds & -> & PL & N). exact PL.
      + reflexivity.
      + left. intros ->. apply forall2_each in EA. inversion EA. congruence.
      + destruct (fold_left _ ws []) as [|x xs] eqn:FL; [contradiction|]. exists x, xs. split; [|intros fs X; discriminate X].
        apply (DG $"structure"); [cbn [aget]; reflexivity|exact Q1|reflexivity]. }
  destruct O as (x & xs & S & PO).
  assert (S' : dict_get $"structure" l = VDict false (x :: xs)) by (unfold dict_get; rewrite S; reflexivity).
  unfold describe_structure_block. cbv zeta. rewrite S'. cbn [truthy].
  split.
  - intros b. destruct (truthy (dict_get $"polymorphic_on" l)); [|discriminate].
    destruct (subscript $"name" _); [|discriminate]. cbn [bind].
    destruct (as_dict _); [|discriminate]. destruct (sort_items [] _); discriminate.
  - intros fs ->. rewrite (PO fs eq_refl). reflexivity.
Qed.
(** @example
Example C88_structure_example :
  let f := Fld p0 (KStructure (SPlain [($"a", Fld p0 KBoolean)]) true None) in
  exists d, describe env0 4 false f = Ok d
    /\ document env0 (fun _ => []) None false d $"x" VNone = py AttributeError.
Proof. eexists. split; [vm_compute; reflexivity|]. vm_compute. reflexivity. Qed.
@end *)

(** @prop C88 No union can be documented: the generator evaluates a misspelled name. *)
Lemma unions_undocumented :
  forall E repr n verbose p fs d role sectional name key,
    unasked p -> fs <> [] -> describe E n verbose (Fld p (KUnion fs)) = Ok d ->
    document E repr role sectional d name key = py NameError.
Proof.
  intros E repr [|m] verbose p fs d role sectional name key U NE H; [discriminate|].
  destruct (descriptions_plain _ _ _ _ _ H) as [_ [l0 ->]]. set (l := strs l0) in *. clearbody l. clear l0.
  assert (T := described_type _ _ _ _ _ _ H (unasked_at p $"fieldtype" U eq_refl)).
  destruct (document_starts E repr role sectional (VDict false l) l name key _ eq_refl T) as (d0 & _ & _ & _ & D).
  assert (D' : document E repr role sectional (VDict false l) name key
               = if truthy (dict_get $"fields" l) then py NameError else Ok d0) by exact D. rewrite D'. clear D D'.
  destruct (described_entry _ _ _ _ _ _ H) as (given & G & _). cbn [describe_given] in G.
  destruct (each _ fs) as [ds|] eqn:EA; [|discriminate]. apply forall2_each in EA.
  assert (S := description_nested E m verbose p _ l $"fields" (VList ds) H (nested_fields _ fs ds EA)).
  unfold dict_get. rewrite S. inversion EA; subst; [contradiction|reflexivity].
Qed.
(** @example
Example C88_union_example :
  let f := Fld p0 (KUnion [Fld p0 KBoolean; Fld p0 (KInteger None None)]) in
  exists d, describe env0 4 false f = Ok d
    /\ document env0 (fun _ => []) None false d $"x" VNone = py NameError.
Proof. eexists. split; [vm_compute; reflexivity|]. vm_compute. reflexivity. Qed.
@end *)

(** @prop C88 So not every field that can be described can be documented. *)
Lemma structures_documented_refuted :
  exists E repr f d, describe E 4 false f = Ok d /\ forall b, document E repr None false d $"x" VNone <> Ok b.
Proof.
  exists env0, (fun _ => []), (Fld p0 (KStructure (SPlain [($"a", Fld p0 KBoolean)]) true None)). eexists.
  split; [vm_compute; reflexivity|]. intros b. vm_compute. discriminate.
Qed.
