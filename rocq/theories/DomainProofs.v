(** * Proofs about the Sphinx directives (C94, C95). *)
(* @imports Spec Demo BuildSpec DocSpec DomainSpec *)
From Verif Require Import BuildSpec PyBaseFacts Demo Induct StructProofs DescFacts DescProofs BuildProofs Doc DocSpec DocProofs Domain DomainSpec.
Open Scope nat_scope.

(** ** What docutils accepts *)

Lemma spec_with name : In name with_text <-> aget name option_spec = Some false.
Proof.
  split; intros H.
  - cbn [In with_text] in H. repeat (destruct H as [<-|H]; [vm_compute; reflexivity|]). destruct H.
  - unfold option_spec in H. cbn [aget] in H.
    repeat match type of H with
           | (if str_eqb name ?n then _ else _) = _ =>
               destruct (str_eqb_spec name n) as [EN|_]; [subst name; first [discriminate H | apply smem_In; vm_compute; reflexivity]|]
           end. discriminate H.
Qed.
Lemma spec_without name : In name without_text <-> aget name option_spec = Some true.
Proof.
  split; intros H.
  - cbn [In without_text] in H. repeat (destruct H as [<-|H]; [vm_compute; reflexivity|]). destruct H.
  - unfold option_spec in H. cbn [aget] in H.
    repeat match type of H with
           | (if str_eqb name ?n then _ else _) = _ =>
               destruct (str_eqb_spec name n) as [EN|_]; [subst name; first [discriminate H | apply smem_In; vm_compute; reflexivity]|]
           end. discriminate H.
Qed.

Lemma smem_false s l : smem s l = false <-> ~ In s l.
Proof. rewrite <- smem_In. destruct (smem s l); intuition congruence. Qed.

Lemma read_options_names l : forall r, read_options l = Some r -> map fst r = map fst l.
Proof.
  induction l as [|[n t] l IH]; cbn [read_options map]; intros r H; [now injection H as <-|].
  destruct (read_options l) as [r'|]; [|discriminate].
  destruct (aget n option_spec) as [flag|]; [|discriminate].
  destruct (smem n (map fst r')); [discriminate|].
  destruct flag; [destruct t; [|discriminate]|]; injection H as <-; cbn; now rewrite (IH r').
Qed.

(** @prop C94 A directive "field" is accepted exactly if its options are known, none is given twice and
    the flags have no text; the text of every other option is then kept as it is. *)
Lemma options_accepted :
  forall o : list (str * str),
    ((exists r, read_options o = Some r) <-> understood o)
    /\ (forall r, read_options o = Some r ->
          map fst r = map fst o
          /\ forall name text, In (name, text) o ->
               (In name with_text -> aget name r = Some (Some text))
               /\ (In name without_text -> aget name r = Some None)).
Proof.
  intros o. split; [split|].
  - intros [r H]. revert r H. induction o as [|[n t] o IH]; intros r H; [split; [constructor|intros ? ? []]|].
    assert (N := read_options_names _ _ H). cbn [read_options] in H.
    destruct (read_options o) as [r'|] eqn:R; [|discriminate].
    destruct (IH _ eq_refl) as [D K]. assert (N' := read_options_names _ _ R).
    destruct (aget n option_spec) as [flag|] eqn:A; [|discriminate].
    destruct (smem n (map fst r')) eqn:M; [discriminate|]. apply smem_false in M. rewrite N' in M.
    split; [cbn; now constructor|].
    intros name text [I|I]; [|now apply K]. injection I as <- <-.
    destruct flag; [right|left; now apply spec_with]. split; [now apply spec_without|]. now destruct t.
  - induction o as [|[n t] o IH]; intros [D K]; [now exists []|].
    cbn in D. inversion D as [|? ? D1 D2]; subst.
    destruct IH as [r R]; [split; [exact D2|intros; apply K; now right]|]. cbn [read_options]. rewrite R.
    assert (N' := read_options_names _ _ R). rewrite <- N' in D1. apply smem_false in D1. rewrite D1.
    destruct (K n t (or_introl eq_refl)) as [I|[I ->]].
    + apply spec_with in I. rewrite I. now eexists.
    + apply spec_without in I. rewrite I. now eexists.
  - induction o as [|[n t] o IH]; intros r H; [injection H as <-; split; [reflexivity|intros ? ? []]|].
    split; [now apply read_options_names|]. cbn [read_options] in H.
    destruct (read_options o) as [r'|] eqn:R; [|discriminate].
    destruct (IH _ eq_refl) as [N' K].
    destruct (aget n option_spec) as [flag|] eqn:A; [|discriminate].
    destruct (smem n (map fst r')) eqn:M; [discriminate|]. apply smem_false in M.
    intros name text [I|I].
    + injection I as <- <-. rewrite spec_with, spec_without, A.
      destruct flag; [destruct t; [|discriminate]|]; injection H as <-; cbn [aget]; rewrite str_eqb_refl;
        split; congruence.
    + assert (NE : str_eqb name n = false).
      { destruct (str_eqb_spec name n) as [->|]; [|reflexivity]. exfalso. apply M. rewrite N'.
        change n with (fst (n, text)). now apply in_map. }
      assert (X : aget name r = aget name r').
      { destruct flag; [destruct t; [|discriminate]|]; injection H as <-; cbn [aget]; now rewrite NE. }
      rewrite X. now apply K.
Qed.
(** @example
Example C94_accepted_example :
  read_options [($"type", $"text"); ($"required", [])] = Some [($"type", Some $"text"); ($"required", None)]
  /\ read_options [($"type", $"text"); ($"type", $"date")] = None
  /\ read_options [($"required", $"yes")] = None
  /\ read_options [($"notes", $"see there")] = None.
Proof. repeat split; vm_compute; reflexivity. Qed.
@end *)

(** ** What the generator writes *)

(** What the formatters add: parameters of their own, none twice, [unique] without text. *)
Definition shapely (q : list (str * val)) : Prop :=
  NoDup (map fst q) /\ forall k v, In (k, v) q -> In k special /\ (k = $"unique" -> v = VStr []).
Definition adds (P : node -> Prop) (d d' : node) : Prop :=
  match d, d' with
  | Block n a p c, Block n' a' p' c' =>
      n' = n /\ a' = a /\ (exists q, p' = p ++ q /\ shapely q) /\ exists e, c' = c ++ e /\ Forall P e
  | _, _ => False
  end.

Lemma adds_plain P n a p c q e :
  shapely q -> Forall P e -> adds P (Block n a p c) (Block n a (p ++ q) (c ++ e)).
Proof. intros Q F. repeat split; eauto. Qed.
Lemma adds_none P n a p c : adds P (Block n a p c) (Block n a p c).
Proof.
  rewrite <- (app_nil_r p) at 2. rewrite <- (app_nil_r c) at 2. apply adds_plain; [|constructor].
  split; [constructor|intros ? ? []].
Qed.
Lemma shapely_one k v : smem k special = true -> (str_eqb k $"unique" = true -> v = VStr []) -> shapely [(k, v)].
Proof.
  intros S U. split; [repeat constructor; intros []|]. intros k' v' [I|[]]. injection I as <- <-.
  split; [now apply smem_In|]. intros ->. now apply U.
Qed.
Lemma shapely_two k v k' v' : smem k special = true -> smem k' special = true -> str_eqb k k' = false ->
  (str_eqb k $"unique" = true -> v = VStr []) -> (str_eqb k' $"unique" = true -> v' = VStr []) -> shapely [(k, v); (k', v')].
Proof.
  intros S S' N U U'. split.
  - repeat constructor; [|intros []]. intros [F|[]]. cbn in F. subst. now rewrite str_eqb_refl in N.
  - intros a b [I|[I|[]]]; injection I as <- <-; (split; [now apply smem_In|]); intros ->; auto.
Qed.
Lemma adds_q P n a p c q : shapely q -> adds P (Block n a p c) (Block n a (p ++ q) c).
Proof. intros Q. rewrite <- (app_nil_r c) at 2. apply adds_plain; [exact Q|constructor]. Qed.
Lemma adds_e P n a p c e : Forall P e -> adds P (Block n a p c) (Block n a p (c ++ e)).
Proof.
  intros F. rewrite <- (app_nil_r p) at 2. apply adds_plain; [|exact F]. split; [constructor|intros ? ? []].
Qed.
Lemma adds_constraints P sep cs n a p c : adds P (Block n a p c) (set_constraints sep cs (Block n a p c)).
Proof.
  destruct cs; [apply adds_none|]. cbn [set_constraints set_param]. apply adds_q, shapely_one; [reflexivity|vm_compute; discriminate].
Qed.

Lemma describe_values_adds (P : node -> Prop) subs :
  (forall s b, In s subs -> s [] VNone = Ok b -> P b) ->
  forall n a p c d', describe_values subs (Block n a p c) = Ok d' ->
  exists e, d' = Block n a p (c ++ e) /\ Forall P e.
Proof.
  induction subs as [|s subs IH]; intros HS n a p c d' H; cbn in H.
  - injection H as <-. exists []. rewrite app_nil_r. split; [reflexivity|constructor].
  - destruct (s [] VNone) as [b|] eqn:B; [|discriminate]. cbn in H.
    destruct (IH (fun s' b' I => HS s' b' (or_intror I)) _ _ _ _ _ H) as (e & -> & F).
    exists (b :: e). rewrite <- app_assoc. split; [reflexivity|]. constructor; [|exact F].
    exact (HS s b (or_introl eq_refl) B).
Qed.

Lemma describe_type_adds (P : node -> Prop) E repr sub subs ft l n a p c d' :
  (forall k nm key b, sub k nm key = Ok b -> P b) ->
  (forall k s b, In s (subs k) -> s [] VNone = Ok b -> P b) ->
  describe_type E repr sub subs ft l (Block n a p c) = Ok d' -> adds P (Block n a p c) d'.
Proof.
  intros HS HSS H. set (d := Block n a p c) in *. assert (R : adds P d d) by apply adds_none. unfold describe_type in H.
  assert (HB : forall sep test shown low high, describe_bounds sep test shown low high l d = Ok d' -> adds P d d').
  { unfold describe_bounds. intros sep test shown low high HH.
    destruct (two_constraints test shown low high _ _); [|discriminate]. cbn in HH. injection HH as <-.
    apply adds_constraints. }
  repeat match type of H with
         | (if str_eqb ft ?t then _ else _) = _ => destruct (str_eqb ft t)
         end.
  - eapply HB, H.
  - unfold describe_datetime in H. destruct (two_constraints _ _ _ _ _ _); [|discriminate].
    cbn [bind] in H. injection H as <-. apply adds_constraints.
  - eapply HB, H.
  - unfold describe_enumeration in H.
    destruct (is_none _); [|injection H as <-; exact R].
    destruct (sget _ _); [|discriminate]. destruct (py_iter _); [|discriminate].
    destruct (each _ _); [|discriminate]. cbn [bind] in H. injection H as <-.
    apply adds_q, shapely_one; [reflexivity|vm_compute; discriminate].
  - eapply HB, H.
  - eapply HB, H.
  - unfold describe_map in H.
    match type of H with bind ?r _ = _ => destruct r as [d1|] eqn:H1; [|discriminate] end. cbn [bind] in H.
    assert (G1 : d1 = d \/ exists w, d1 = set_param $"required_keys" w d).
    { destruct (truthy _); [|injection H1 as <-; now left]. destruct (py_iter _); [|discriminate].
      destruct (sort_items _ _); [|discriminate]. cbn [bind] in H1. injection H1 as <-. right. now eexists. }
    match type of H with bind ?r _ = _ => destruct r as [key|] eqn:H2; [|discriminate] end. cbn [bind] in H.
    destruct (sget $"value" l) as [value|]; [|discriminate].
    assert (HV : forall vl,
      (if truthy (dict_get $"structural" vl) || truthy (dict_get $"description" vl)
       then do b <- sub $"value" [] key; Ok (append b d1)
       else do t <- subscript $"fieldtype" value;
            Ok (set_param $"subtype" (VStr (arg_text E key ++ $": " ++ arg_text E t)) d1)) = Ok d' -> adds P d d').
    { intros vl HH. destruct (_ || _).
      - destruct (sub $"value" [] key) as [b|] eqn:B; [|discriminate]. cbn [bind] in HH. injection HH as <-.
        assert (PB : Forall P [b]) by (constructor; [eapply HS, B|constructor]).
        destruct G1 as [->|[w ->]]; cbn [append set_param d].
        + apply adds_e; exact PB.
        + apply adds_plain; [apply shapely_one; [reflexivity|vm_compute; discriminate]|exact PB].
      - destruct (subscript $"fieldtype" value); [|discriminate]. cbn [bind] in HH. injection HH as <-.
        destruct G1 as [->|[w ->]]; cbn [set_param d].
        + apply adds_q, shapely_one; [reflexivity|vm_compute; discriminate].
        + rewrite <- app_assoc. apply adds_q. cbn [app].
          apply shapely_two; [reflexivity|reflexivity|reflexivity|vm_compute; discriminate|vm_compute; discriminate]. }
    destruct value; try discriminate; eapply HV, H.
  - unfold describe_sequence in H. destruct (two_constraints _ _ _ _ _ _) as [cs|]; [|discriminate]. cbn [bind] in H.
    destruct (sub _ _ _) as [b|] eqn:B; [|discriminate]. cbn [bind] in H. injection H as <-.
    assert (PB : Forall P [b]) by (constructor; [eapply HS, B|constructor]).
    destruct (truthy _); destruct cs as [|c1 cs]; cbn [set_constraints set_param append d].
    + apply adds_plain; [apply shapely_one; [reflexivity|reflexivity]|exact PB].
    + rewrite <- app_assoc. apply adds_plain; [|exact PB]. cbn [app].
      apply shapely_two; [reflexivity|reflexivity|reflexivity|reflexivity|vm_compute; discriminate].
    + apply adds_e; exact PB.
    + apply adds_plain; [apply shapely_one; [reflexivity|vm_compute; discriminate]|exact PB].
  - unfold describe_structure_block in H. destruct (truthy _); [|injection H as <-; exact R].
    destruct (truthy _); [|discriminate]. destruct (subscript _ _); [|discriminate]. cbn [bind] in H.
    destruct (as_dict _); [|discriminate]. destruct (sort_items _ _); discriminate.
  - unfold describe_text in H. destruct (two_constraints _ _ _ _ _ _) as [cs|]; [|discriminate]. cbn [bind] in H.
    set (cs' := cs ++ _) in H.
    destruct (truthy (dict_get $"pattern" l)); injection H as <-; [|apply adds_constraints].
    destruct cs' as [|c1 cs']; cbn [set_constraints set_param d].
    + apply adds_q, shapely_one; [reflexivity|vm_compute; discriminate].
    + rewrite <- app_assoc. apply adds_q. cbn [app].
      apply shapely_two; [reflexivity|reflexivity|reflexivity|vm_compute; discriminate|vm_compute; discriminate].
  - eapply HB, H.
  - destruct (truthy _); [|injection H as <-; exact R].
    assert (HV : describe_values (subs $"values") d = Ok d' -> adds P d d').
    { intros HH. destruct (describe_values_adds P _ (HSS $"values") _ _ _ _ _ HH) as (e & -> & F).
      apply adds_e; exact F. }
    destruct (dict_get $"values" l); try discriminate; apply HV, H.
  - destruct (truthy _); [discriminate|]. injection H as <-; exact R.
  - injection H as <-; exact R.
Qed.

(** The names every kind of field may have, in order. *)
Inductive sub {A} : list A -> list A -> Prop :=
| sub_nil l : sub [] l
| sub_skip x l m : sub l m -> sub l (x :: m)
| sub_take x l m : sub l m -> sub (x :: l) (x :: m).
Lemma sub_In {A} (l m : list A) : sub l m -> forall x, In x l -> In x m.
Proof. induction 1; cbn; intros y Hy; [destruct Hy|right; auto|]. destruct Hy as [->|Hy]; auto. Qed.
Lemma sub_NoDup {A} (l m : list A) : sub l m -> NoDup m -> NoDup l.
Proof.
  induction 1 as [|x l m S IH|x l m S IH]; intros N; [constructor| |]; inversion N; subst; auto.
  constructor; auto. intros I. eauto using sub_In.
Qed.
Lemma sub_opt {A} (c : bool) (n : str) (w : A) l m :
  sub (map fst l) m -> sub (map fst ((if c then [(n, w)] else []) ++ l)) (n :: m).
Proof. destruct c; cbn; [apply sub_take|apply sub_skip]. Qed.
Lemma sub_nopt {A} (c : bool) (n : str) (w : A) l m :
  sub (map fst l) m -> sub (map fst ((if c then [] else [(n, w)]) ++ l)) (n :: m).
Proof. destruct c; cbn; [apply sub_skip|apply sub_take]. Qed.
Lemma sub_last {A} (c : bool) (n : str) (w : A) m : sub (map fst (if c then [] else [(n, w)])) (n :: m).
Proof. destruct c; [apply sub_nil|apply sub_take, sub_nil]. Qed.

Definition common_names : list str :=
  [$"sectional"; $"type"; $"description"; $"notes"; $"nonnull"; $"ignore_null"; $"required"; $"constant";
   $"default"; $"title"].
Lemma common_sub repr role sectional type l :
  sub (map fst (common_params repr role sectional type l)) common_names.
Proof.
  unfold common_params, flag_roles, common_names. cbn [flat_map fst snd].
  rewrite !app_nil_r, <- !app_assoc.
  apply sub_opt. cbn [app map fst]. apply sub_take.
  do 5 apply sub_opt. do 2 apply sub_nopt.
  apply sub_last.
Qed.

Fixpoint distinct (l : list str) : bool :=
  match l with [] => true | x :: l' => negb (smem x l') && distinct l' end.
Lemma distinct_NoDup l : distinct l = true -> NoDup l.
Proof.
  induction l as [|x l IH]; cbn; intros H; [constructor|]. apply andb_true_iff in H as [H1 H2].
  constructor; [|auto]. apply smem_false. now destruct (smem x l).
Qed.
Lemma NoDup_both {A} (a b : list A) : NoDup a -> NoDup b -> (forall x, In x a -> In x b -> False) -> NoDup (a ++ b).
Proof.
  induction a as [|x a IH]; cbn; intros Na Nb D; [exact Nb|]. inversion Na; subst. constructor.
  - rewrite in_app_iff. intros [I|I]; [contradiction|]. eapply D; eauto.
  - apply IH; auto. intros y I J. eapply D; eauto.
Qed.

Definition fine (E : env) (x : node) : Prop :=
  exists args params content, x = Block $"field" args params content
  /\ (understood (written_options E params) <-> ~ In $"notes" (map fst params)).

Lemma fine_here E repr role sectional type l q name content :
  shapely q -> fine E (Block $"field" [name] (common_params repr role sectional type l ++ q) content).
Proof.
  intros [Q1 Q2]. eexists _, _, _. split; [reflexivity|].
  set (ps := common_params repr role sectional type l).
  assert (S : sub (map fst ps) common_names) by apply common_sub.
  assert (K : forall k, In k (map fst q) -> In k special).
  { intros k I. apply in_map_iff in I as ([k' v] & <- & I). now apply Q2 in I. }
  assert (W : forall ps, map fst (written_options E ps) = map fst ps).
  { intros l'. unfold written_options. rewrite map_map. reflexivity. }
  split.
  - intros [_ U] I. apply in_map_iff in I as ([k v] & X & I). cbn in X. subst k.
    destruct (U $"notes" (arg_text E v)) as [J|[J _]].
    + unfold written_options. apply in_map_iff. now exists ($"notes", v).
    + apply smem_In in J. vm_compute in J. discriminate.
    + apply smem_In in J. vm_compute in J. discriminate.
  - intros N. split.
    + rewrite W, map_app. apply NoDup_both; [|exact Q1|].
      * eapply sub_NoDup; [exact S|]. apply distinct_NoDup. vm_compute. reflexivity.
      * intros x I J. apply (sub_In _ _ S) in I. apply K in J. cbn [In common_names] in I.
        repeat (destruct I as [<-|I]; [apply smem_In in J; vm_compute in J; discriminate|]). destruct I.
    + intros nm text I. unfold written_options in I. apply in_map_iff in I as ([k v] & X & I).
      cbn [fst snd] in X. injection X as <- <-.
      assert (NK : k <> $"notes").
      { intros ->. apply N. apply in_map_iff. now exists ($"notes", v). }
      apply in_app_or in I as [I|I].
      * apply in_common in I.
        repeat match type of I with _ \/ _ => destruct I as [I|I] end;
          repeat match goal with H : _ /\ _ |- _ => destruct H end; subst k;
          first [ left; apply smem_In; vm_compute; reflexivity
                | contradiction NK; reflexivity
                | right; split; [apply smem_In; vm_compute; reflexivity|subst v; reflexivity] ].
      * destruct (Q2 _ _ I) as [J U]. cbn [In special] in J.
        repeat (destruct J as [<-|J];
                [first [left; apply smem_In; vm_compute; reflexivity
                       |right; split; [apply smem_In; vm_compute; reflexivity|now rewrite (U eq_refl)]]|]).
        destruct J.
Qed.

Lemma within_inv x n a p c : within_node x (Block n a p c) ->
  x = Block n a p c \/ exists y, In y c /\ within_node x y.
Proof. inversion 1; subst; eauto. Qed.

Lemma document_fine E repr v :
  (forall role sectional name key d, document E repr role sectional v name key = Ok d -> forall x, within_node x d -> fine E x)
  /\ (forall w, In w (subvals v) -> forall role sectional name key d,
        document E repr role sectional w name key = Ok d -> forall x, within_node x d -> fine E x).
Proof.
  induction v as [v IH] using val_ind'. split; [|intros w I; exact (proj1 (IH w I))].
  intros role sectional name key d H x W.
  destruct (as_dict v) as [l|] eqn:A; [|destruct v; discriminate].
  rewrite (document_dict _ _ _ _ _ _ _ _ A) in H. unfold level in H.
  assert (SV : forall k w, sget k l = Some w -> In w (subvals v)).
  { intros k w G. apply sget_In in G. assert (subvals v = flat_map (fun kv => [fst kv; snd kv]) l) as ->
      by (destruct v; try discriminate; injection A as <-; reflexivity).
    apply in_flat_map. exists (VStr k, w). split; [exact G|]. right. now left. }
  destruct (sget $"fieldtype" l) as [t|] eqn:T; [|discriminate].
  set (ty := if truthy key then VStr (arg_text E key ++ $": " ++ arg_text E t) else t) in H.
  assert (G : adds (fun b => forall x, within_node x b -> fine E x)
                (Block $"field" [name] (common_params repr role sectional ty l) []) d).
  { destruct t; try discriminate H;
      (eapply describe_type_adds; [| |exact H];
       [ intros k nm key' bb HB; cbn beta in HB; destruct (sget k l) as [w|] eqn:K; [|discriminate];
         apply SV in K; exact (proj1 (IH w K) _ _ _ _ _ HB)
       | intros k ss bb I HB; cbn beta in I; destruct (sget k l) as [w|] eqn:K; [|destruct I];
         apply SV in K; destruct w; try (destruct I; fail);
         (apply in_map_iff in I as (y & <- & I);
          match type of K with In ?w _ => exact (proj2 (IH w K) y I _ _ _ _ _ HB) end)]). }
  destruct d as [n a p c|]; [|contradiction].
  destruct G as (-> & -> & (q & -> & Q) & e & C & F). cbn [app] in C. subst c.
  apply within_inv in W as [->|(y & I & W)]; [now apply fine_here|].
  rewrite Forall_forall in F. exact (F y I x W).
Qed.

(** @prop C94 (partial) All that the generator writes for a description are directives "field", and the
    Sphinx directive accepts exactly those without notes; the directive for a description has
    the option "notes" exactly if the description has notes. *)
Lemma documentation_accepted_partial :
  forall E repr role sectional v name key d,
    document E repr role sectional v name key = Ok d ->
    (forall x, within_node x d -> exists args params content,
       x = Block $"field" args params content
       /\ ((exists options, read_options (written_options E params) = Some options)
           <-> ~ In $"notes" (map fst params)))
    /\ exists l params content,
         as_dict v = Some l /\ d = Block $"field" [name] params content
         /\ (In $"notes" (map fst params) <-> truthy (noted $"notes" l) = true).
Proof.
  intros E repr role sectional v name key d H. split.
  - intros x W. destruct (proj1 (document_fine E repr v) _ _ _ _ _ H _ W) as (a & p & c & -> & F).
    exists a, p, c. split; [reflexivity|]. rewrite (proj1 (options_accepted _)). exact F.
  - destruct (as_dict v) as [l|] eqn:A; [|destruct v; discriminate]. exists l.
    assert (HN := documented_params E repr role sectional v l name key d $"notes").
    destruct (document_block _ _ _ _ _ _ _ _ _ A H) as (t & q & c & T & -> & Q).
    eexists _, _. split; [reflexivity|]. split; [reflexivity|]. split.
    + intros I. apply in_map_iff in I as ([k w] & X & I). cbn in X. subst k.
      assert (S := proj1 (HN w A H ltac:(now apply not_extra)) I). destruct S as (t' & _ & S). apply in_common in S.
      repeat match type of S with _ \/ _ => destruct S as [S|S] end;
        repeat match goal with H : _ /\ _ |- _ => destruct H end;
        first [assumption | exfalso; match goal with H : lit ?a = lit ?b |- _ => exact (lit_neq (lit a) (lit b) eq_refl H) end].
    + intros N. apply in_map_iff. exists ($"notes", noted $"notes" l). split; [reflexivity|].
      apply in_or_app. left. apply in_common. do 3 right. left. auto.
Qed.
(** @example
Example C94_documentation_example :
  let item := VDict false [(VStr $"fieldtype", VStr $"text"); (VStr $"notes", VStr $"short")] in
  let v := VDict false [(VStr $"fieldtype", VStr $"sequence"); (VStr $"unique", VBool true);
                        (VStr $"max_length", VInt 3); (VStr $"item", item)] in
  let inner := Block $"field" [[]] [($"type", VStr $"text"); ($"notes", VStr $"short")] [] in
  let outer := [($"type", VStr $"sequence"); ($"unique", VStr []); ($"constraints", VStr $"max=3")] in
  document env0 (fun _ => []) None false v $"tags" VNone = Ok (Block $"field" [$"tags"] outer [inner])
  /\ read_options (written_options env0 outer)
     = Some [($"type", Some $"sequence"); ($"unique", None); ($"constraints", Some $"max=3")]
  /\ read_options (written_options env0 [($"type", VStr $"text"); ($"notes", VStr $"short")]) = None.
Proof. repeat split; vm_compute; reflexivity. Qed.
@end *)

(** @prop C94 (refuted) A field with notes can be documented, and Sphinx refuses the directive. *)
Lemma documentation_accepted_refuted :
  exists E repr v params,
    document E repr None false v $"name" VNone = Ok (Block $"field" [$"name"] params [])
    /\ read_options (written_options E params) = None.
Proof.
  exists env0, (fun _ => []), (VDict false [(VStr $"fieldtype", VStr $"text"); (VStr $"notes", VStr $"short")]),
    [($"type", VStr $"text"); ($"notes", VStr $"short")].
  split; vm_compute; reflexivity.
Qed.

(** ** What the directive shows *)

Lemma words_element tag t c : words_in (text_element tag t c) = t.
Proof. destruct t; [reflexivity|]. cbn. now rewrite app_nil_r. Qed.

Definition words_of (l : list dnode) : str := flat_map words_in l.
Lemma words_app a b : words_of (a ++ b) = words_of a ++ words_of b.
Proof. apply flat_map_app. Qed.
Lemma words_spaced d : words_of (spaced d) = $" " ++ words_in d.
Proof. cbn. now rewrite app_nil_r. Qed.

Lemma text_said o n : said o n = match option_text o n with Some t => [t] | None => [] end.
Proof. unfold said, option_text. destruct (aget n o) as [[[|c s]|]|]; reflexivity. Qed.
Lemma aget_names {A} n (o : list (str * A)) : (exists w, aget n o = Some w) <-> In n (map fst o).
Proof.
  induction o as [|[k v] o IH]; cbn; [split; [intros [w H]; discriminate|intros []]|].
  destruct (str_eqb_spec n k) as [->|N]; [split; eauto|]. rewrite IH. split; [auto|]. intros [E|I]; [congruence|exact I].
Qed.
Lemma has_smem o n : has_option o n = smem n (map fst o).
Proof.
  unfold has_option. destruct (aget n o) as [w|] eqn:A.
  - symmetry. apply smem_In, aget_names. eauto.
  - symmetry. apply smem_false. intros I. apply aget_names in I as [w I]. congruence.
Qed.

Lemma halves_split s :
  match halves s with
  | (a, None) => split_on 59 s = [a]
  | (a, Some b) => exists rest, split_on 59 s = a :: rest /\ rest <> [] /\ join $";" rest = b
  end.
Proof.
  induction s as [|c s IH]; [reflexivity|]. cbn [halves split_on].
  destruct (N.eqb_spec c 59) as [->|N].
  - exists (split_on 59 s). split; [reflexivity|]. split; [apply split_on_nonempty|]. exact (join_split 59 s).
  - destruct (halves s) as [a [b|]].
    + destruct IH as (rest & S & R & J). rewrite S. exists rest. auto.
    + now rewrite IH.
Qed.
Lemma words_subtype t : words_in (subtype_node t) = bracketed t.
Proof.
  assert (H := halves_split t). unfold subtype_node, bracketed. destruct (halves t) as [a [b|]].
  - destruct H as (rest & -> & _ & ->). cbn [words_in]. change (flat_map words_in) with words_of.
    rewrite !words_app. destruct b as [|x b].
    + unfold words_of, emphasis. cbn [flat_map]. rewrite words_element. cbn. now rewrite app_nil_r.
    + unfold words_of. cbn [flat_map]. unfold emphasis, inline. rewrite !words_element. cbn [words_in].
      rewrite !app_nil_r, <- !app_assoc. reflexivity.
  - rewrite H. cbn [words_in]. change (flat_map words_in) with words_of.
    rewrite !words_app. unfold words_of, emphasis. cbn [flat_map]. rewrite words_element. cbn. now rewrite app_nil_r.
Qed.

Definition spaces (l : list str) : str := flat_map (fun t => $" " ++ t) l.
Lemma spaces_app a b : spaces (a ++ b) = spaces a ++ spaces b.
Proof. apply flat_map_app. Qed.
Lemma spaces_opt o n (f : str -> str) (g : str -> dnode) :
  (forall t, words_in (g t) = f t) ->
  words_of (match option_text o n with Some t => spaced (g t) | None => [] end) = spaces (map f (said o n)).
Proof.
  intros H. rewrite text_said. destruct (option_text o n) as [t|]; [|reflexivity].
  rewrite words_spaced, H. cbn. now rewrite app_nil_r.
Qed.

(** @prop C95 The signature of a field shows, in this order, its name (behind it a full stop if it is a
    number, nothing for the discriminator of a polymorphic structure, else a colon), the type, the
    subtype in angle brackets, the type of the keys, the constant or else the default, the constraints,
    the flags and the title in quotes, each behind a blank and exactly if it is given and not empty. *)
Lemma signature_words :
  forall E options name,
    exists head, headed E options match name with Some n => n | None => [] end head
    /\ words_in (DNode $"paragraph" [$"field-signature"] (signature E options name))
       = head ++ flat_map (fun piece => $" " ++ piece) (pieces options).
Proof.
  intros E o name. cbn [words_in]. change (flat_map words_in) with words_of.
  change (flat_map (fun piece => $" " ++ piece)) with spaces.
  unfold signature, pieces. rewrite !words_app, !spaces_app.
  exists (words_of match name with
      | Some (c :: r) =>
      [strong ((c :: r) ++ name_end E o (c :: r))
         [$"field-name"; class_of o $"required"; class_of o $"sectional"; class_of o $"polymorphic_discriminator"]]
      | _ => [] end).
  split.
  - destruct name as [[|c r]|]; [now left| |now left].
    set (n := c :: r). assert (NE : n <> []) by discriminate. unfold words_of, strong. cbn [flat_map].
    rewrite words_element, app_nil_r. unfold name_end. rewrite has_smem. unfold headed, raised.
    rewrite <- smem_In. destruct (smem _ _); [right; left; rewrite app_nil_r; auto|]. right; right.
    assert (B : existsb (N.eqb 32) n = true <-> In 32%N n).
    { rewrite existsb_exists. split; [intros (x & I & X); apply N.eqb_eq in X; now subst|].
      intros I. exists 32%N. auto. }
    assert (FT : false <> true) by discriminate.
    destruct (existsb (N.eqb 32) n).
    + right. intuition.
    + destruct (parse_int (e_udigit E) n) as [z|] eqn:P.
      * left. repeat split; auto; [intros I; apply B in I; discriminate|]. now exists z.
      * right. auto.
  - f_equal. f_equal; [rewrite (spaces_opt o $"type" (fun t => t)), map_id; [reflexivity|intros; apply words_element]|].
    f_equal; [apply spaces_opt, words_subtype|].
    f_equal; [apply (spaces_opt o $"key" (fun t => $"key=" ++ t)); intros; apply words_element|].
    f_equal; [apply (spaces_opt o $"constant" (fun t => $"constant=" ++ t)); intros; apply words_element|].
    f_equal.
    { rewrite (text_said o $"constant"). destruct (option_text o $"constant"); [now destruct (option_text o $"default")|].
      rewrite text_said. destruct (option_text o $"default") as [t|]; [|reflexivity].
      rewrite words_spaced. unfold literal. rewrite words_element. cbn. now rewrite app_nil_r. }
    f_equal; [rewrite <- (map_id (said o $"constraints")); apply (spaces_opt o $"constraints" (fun t => t)); intros; apply words_element|].
    f_equal; [|apply (spaces_opt o $"title" (fun t => [34%N] ++ t ++ [34%N])); intros; apply words_element].
    unfold flag_words. assert (F : filter (has_option o) flag_names
      = filter (fun f => smem f (map fst o)) [$"required"; $"nonnull"; $"ignore_null"; $"polymorphic"; $"unique"]).
    { apply filter_ext. intros a. apply has_smem. }
    rewrite F. clear F. destruct (filter _ _); [reflexivity|]. rewrite words_spaced. unfold inline. rewrite words_element.
    cbn [spaces flat_map]. now rewrite app_nil_r.
Qed.
(** @example
Example C95_signature_example :
  let options := [($"type", Some $"map"); ($"subtype", Some $"text: integer;required nonnull"); ($"unique", None);
                  ($"required", None); ($"default", Some $"3"); ($"title", Some $"Counts")] in
  words_in (DNode [] [] (signature env0 options (Some $"counts")))
  = $"counts: map <text: integer required nonnull> default=3 required unique " ++ [34%N] ++ $"Counts" ++ [34%N]
  /\ words_in (DNode [] [] (signature env0 [($"type", Some $"text")] (Some $"0"))) = $"0. text".
Proof. split; vm_compute; reflexivity. Qed.
@end *)

(** @prop C95 Below the signature stand, in one block, the description, the pattern, the values and the
    required keys as far as they are given, and then the nested content unchanged; without any of
    these there is no block. *)
Lemma directive_block :
  forall E options name content,
    exists lines classes,
      map words_in lines
      = said options $"description"
        ++ flat_map (fun n => map (fun t => n ++ $": " ++ t) (said options n)) [$"pattern"; $"values"; $"required_keys"]
      /\ In $"field" classes
      /\ field_definition E options name content
         = DNode $"container" classes
             (DNode $"paragraph" [$"field-signature"] (signature E options name)
              :: match lines ++ content with [] => [] | l => [DNode $"block_quote" [] l] end).
Proof.
  intros E o name content.
  exists (match option_text o $"description" with Some t => [inline t [$"field-description"]] | None => [] end
    ++ flat_map (fun name => match option_text o name with Some t => [aspect_block name t literal] | None => [] end) aspect_names),
    [$"field"; class_of o $"sectional"].
  split; [|split; [now left|]].
  - rewrite map_app. f_equal.
    + rewrite text_said. destruct (option_text o _); [|reflexivity]. cbn [map]. unfold inline. now rewrite words_element.
    + unfold aspect_names. assert (H : forall n, map words_in match option_text o n with Some t => [aspect_block n t literal] | None => [] end
        = map (fun t => n ++ $": " ++ t) (said o n)).
      { intros n. rewrite text_said. destruct (option_text o n); [|reflexivity]. cbn [map].
        unfold aspect_block. cbn [words_in flat_map]. unfold inline, literal. rewrite !words_element, app_nil_r.
        now rewrite <- app_assoc. }
      cbn [flat_map]. rewrite !map_app, !H. reflexivity.
  - unfold field_definition, details. rewrite app_assoc. reflexivity.
Qed.
(** @example
Example C95_block_example :
  field_definition env0 [($"type", Some $"text"); ($"pattern", Some $"a*"); ($"description", Some $"A word.")] None [DText $"x"]
  = DNode $"container" [$"field"; []]
      [DNode $"paragraph" [$"field-signature"] [DText $" "; DNode $"emphasis" [$"field-type"] [DText $"text"]];
       DNode $"block_quote" []
         [DNode $"inline" [$"field-description"] [DText $"A word."];
          DNode $"paragraph" [$"field-aspect"]
            [DNode $"inline" [$"aspect-name"] [DText $"pattern: "]; DNode $"literal" [] [DText $"a*"]];
          DText $"x"]]
  /\ field_definition env0 [($"type", Some $"text")] None []
  = DNode $"container" [$"field"; []]
      [DNode $"paragraph" [$"field-signature"] [DText $" "; DNode $"emphasis" [$"field-type"] [DText $"text"]]].
Proof. split; vm_compute; reflexivity. Qed.
@end *)

Lemma readable_head a b t c l : readable t a -> readable t (DNode b c (a :: l)).
Proof.
  intros (x & y & H). unfold readable. cbn [words_in flat_map]. rewrite H.
  exists x, (y ++ flat_map words_in l). now rewrite <- !app_assoc.
Qed.
Lemma in_infix (t : str) (l : list str) : In t l -> exists a b, spaces l = a ++ t ++ b.
Proof.
  induction l as [|x l IH]; [intros []|]. intros [->|I].
  - exists $" ", (spaces l). cbn [spaces flat_map]. now rewrite <- app_assoc.
  - destruct (IH I) as (a & b & H). exists ($" " ++ x ++ a), b. cbn [spaces flat_map].
    change (flat_map (fun t => $" " ++ t) l) with (spaces l). rewrite H, <- !app_assoc. reflexivity.
Qed.
Lemma words_infix t d l : In d l -> readable t d -> exists a b, words_of l = a ++ t ++ b.
Proof.
  intros I (x & y & H). apply in_split in I as (l1 & l2 & ->). rewrite words_app. cbn [words_of flat_map].
  rewrite H. exists (words_of l1 ++ x), (y ++ words_of l2). unfold words_of. rewrite <- !app_assoc. reflexivity.
Qed.

(** @prop C95 (partial) Every option with a text that is not empty can be read in what the directive
    shows, but for examples, for defaults of fields with a constant, and for subtypes with a
    semicolon (where a blank is shown for it); the flags "required", "nonnull", "ignore_null",
    "polymorphic" and "unique" can be read, and all of the nested content. *)
Lemma directive_shows_partial :
  forall E (options : list (str * option str)) name content,
    (forall (option text : str), aget option options = Some (Some text) -> text <> [] ->
       In option with_text -> option <> $"example" ->
       (option = $"default" -> forall c, aget $"constant" options = Some (Some c) -> c = []) ->
       (option = $"subtype" -> ~ In 59%N text) ->
       readable text (field_definition E options name content))
    /\ (forall flag, In flag [$"required"; $"nonnull"; $"ignore_null"; $"polymorphic"; $"unique"] ->
          In flag (map fst options) -> readable flag (field_definition E options name content))
    /\ (forall d, In d content -> forall text, readable text d -> readable text (field_definition E options name content))
    /\ (forall n, name = Some n -> readable n (field_definition E options name content)).
Proof.
  intros E o name content.
  destruct (signature_words E o name) as (head & HH & SW).
  destruct (directive_block E o name content) as (lines & cl & WL & _ & FD).
  assert (SIG : forall t p, In p (pieces o) -> (exists a b, p = a ++ t ++ b) -> readable t (field_definition E o name content)).
  { intros t p I (a & b & X). rewrite FD. apply readable_head. unfold readable. rewrite SW.
    change (flat_map (fun piece => $" " ++ piece)) with spaces.
    destruct (in_infix _ _ I) as (a' & b' & Y). rewrite Y, X. exists (head ++ a' ++ a), (b ++ b').
    now rewrite <- !app_assoc. }
  assert (BLK : forall t d, In d (lines ++ content) -> readable t d -> readable t (field_definition E o name content)).
  { intros t d I R. rewrite FD. destruct (lines ++ content) as [|d0 l0] eqn:L; [destruct I|]. rewrite <- L in *.
    destruct (words_infix _ _ _ I R) as (a & b & X). unfold readable. cbn [words_in flat_map].
    change (flat_map words_in) with words_of in *. rewrite X.
    exists (words_of (signature E o name) ++ a), (b ++ []). now rewrite <- !app_assoc. }
  assert (SAID : forall (opt text : str), aget opt o = Some (Some text) -> text <> [] -> In text (said o opt)).
  { intros opt text A N. unfold said. rewrite A. destruct text; [contradiction|now left]. }
  assert (LN : forall t, In t (map words_in lines) -> exists d, In d (lines ++ content) /\ words_in d = t).
  { intros t I. apply in_map_iff in I as (d & X & I). exists d. split; [apply in_or_app; now left|exact X]. }
  assert (SAME : forall t : str, exists a b, t = a ++ t ++ b) by (intros t; exists [], []; now rewrite app_nil_r).
  repeat split.
  - intros option text A N I NE ND NS. assert (S := SAID _ _ A N).
    cbn [In with_text] in I. unfold pieces in SIG. repeat setoid_rewrite in_app_iff in SIG.
    repeat match type of I with _ \/ _ => destruct I as [I|I] end; try (destruct I; fail); subst option.
    + eapply (SIG text ($"constant=" ++ text)); [do 3 right; left; apply in_map_iff; eauto|].
      exists $"constant=", []. now rewrite app_nil_r.
    + eapply (SIG text text); [do 5 right; left; exact S|apply SAME].
    + eapply (SIG text ($"default=" ++ text)); [|exists $"default=", []; now rewrite app_nil_r].
      do 4 right; left. unfold said at 1.
      destruct (aget $"constant" o) as [[c|]|] eqn:C; [rewrite (ND eq_refl c eq_refl)| |]; apply in_map_iff; eauto.
    + destruct (LN text) as (d & J & W); [rewrite WL; apply in_or_app; now left|].
      apply (BLK _ d J). unfold readable. rewrite W. apply SAME.
    + contradiction NE; reflexivity.
    + eapply (SIG text ($"key=" ++ text)); [do 2 right; left; apply in_map_iff; eauto|].
      exists $"key=", []. now rewrite app_nil_r.
    + destruct (LN ($"pattern" ++ $": " ++ text)) as (d & J & W).
      { rewrite WL. apply in_or_app. right. apply in_flat_map. exists $"pattern". split; [now left|].
        apply in_map_iff. eauto. }
      apply (BLK _ d J). unfold readable. rewrite W. exists ($"pattern" ++ $": "), []. now rewrite app_nil_r, <- app_assoc.
    + destruct (LN ($"required_keys" ++ $": " ++ text)) as (d & J & W).
      { rewrite WL. apply in_or_app. right. apply in_flat_map. exists $"required_keys". split; [right; right; now left|].
        apply in_map_iff. eauto. }
      apply (BLK _ d J). unfold readable. rewrite W. exists ($"required_keys" ++ $": "), []. now rewrite app_nil_r, <- app_assoc.
    + eapply (SIG text (bracketed text)); [right; left; apply in_map_iff; eauto|].
      unfold bracketed. rewrite (split_on_none 59 text (NS eq_refl)). cbn [join]. exists $"<", $">". reflexivity.
    + eapply (SIG text ([34%N] ++ text ++ [34%N])); [do 7 right; apply in_map_iff; eauto|].
      exists [34%N], [34%N]. reflexivity.
    + eapply (SIG text text); [left; exact S|apply SAME].
    + destruct (LN ($"values" ++ $": " ++ text)) as (d & J & W).
      { rewrite WL. apply in_or_app. right. apply in_flat_map. exists $"values". split; [right; now left|].
        apply in_map_iff. eauto. }
      apply (BLK _ d J). unfold readable. rewrite W. exists ($"values" ++ $": "), []. now rewrite app_nil_r, <- app_assoc.
  - intros flag I R.
    assert (J : In flag (flag_words o)) by (unfold flag_words; apply filter_In; split; [exact I|now apply smem_In]).
    assert (JI : exists a b, join $" " (flag_words o) = a ++ flag ++ b).
    { clear -J. induction (flag_words o) as [|x l IH]; [destruct J|]. destruct J as [->|J].
      - destruct l; [exists [], []; cbn; now rewrite app_nil_r|]. rewrite join_cons by discriminate.
        exists []. eexists. reflexivity.
      - destruct (IH J) as (a & b & X). destruct l; [destruct J|]. rewrite join_cons by discriminate. rewrite X.
        exists (x ++ $" " ++ a), b. now rewrite <- !app_assoc. }
    eapply (SIG flag (join $" " (flag_words o))); [|exact JI].
    unfold pieces. rewrite !in_app_iff. do 6 right; left. destruct (flag_words o); [destruct J|now left].
  - intros d I text R. apply (BLK text d); [apply in_or_app; now right|exact R].
  - intros n ->. rewrite FD. apply readable_head. unfold readable. rewrite SW.
    assert (X : exists e, head = n ++ e).
    { destruct HH as [[-> ->]|[(_ & _ & ->)|[(_ & _ & _ & _ & ->)|(_ & _ & _ & ->)]]]; [now exists []|exists []; now rewrite app_nil_r| |]; eauto. }
    destruct X as [e ->]. exists []. eexists. cbn [app]. rewrite <- app_assoc. reflexivity.
Qed.
(** @example
Example C95_shows_example :
  words_in (field_definition env0
    [($"type", Some $"integer"); ($"constraints", Some $"min=0"); ($"required", None); ($"description", Some $"How many.")]
    (Some $"count") [DText $"nested"])
  = $"count: integer min=0 requiredHow many.nested".
Proof. vm_compute. reflexivity. Qed.
@end *)

(** @prop C95 (refuted) Examples are accepted by the directive and never shown. *)
Lemma directive_shows_refuted :
  exists (E : env) options, read_options [($"type", $"text"); ($"example", $"bingo")] = Some options
    /\ aget $"example" options = Some (Some $"bingo")
    /\ ~ readable $"bingo" (field_definition E options None []).
Proof.
  exists env0, [($"type", Some $"text"); ($"example", Some $"bingo")].
  split; [vm_compute; reflexivity|]. split; [vm_compute; reflexivity|].
  intros (a & b & H). assert (W : words_in (field_definition env0 [($"type", Some $"text"); ($"example", Some $"bingo")] None []) = $" text")
    by (vm_compute; reflexivity).
  rewrite W in H. apply (f_equal (existsb (N.eqb 98))) in H. rewrite !existsb_app in H.
  assert (B : existsb (N.eqb 98) $"bingo" = true) by (vm_compute; reflexivity).
  rewrite B, orb_true_l, orb_true_r in H. vm_compute in H. discriminate.
Qed.

(** @prop C95 The option "example" changes nothing of what is shown. *)
Lemma example_unused :
  forall E a text b name content,
    field_definition E (a ++ ($"example", text) :: b) name content = field_definition E (a ++ b) name content.
Proof.
  intros E a text b name content.
  assert (G : forall n, str_eqb n $"example" = false -> aget n (a ++ ($"example", text) :: b) = aget n (a ++ b)).
  { intros n N. induction a as [|[k v] a IH]; cbn [app aget]; [now rewrite N|]. destruct (str_eqb n k); auto. }
  assert (H : forall n, str_eqb n $"example" = false -> has_option (a ++ ($"example", text) :: b) n = has_option (a ++ b) n)
    by (intros; unfold has_option; now rewrite G).
  assert (T : forall n, str_eqb n $"example" = false -> option_text (a ++ ($"example", text) :: b) n = option_text (a ++ b) n)
    by (intros; unfold option_text; now rewrite G).
  assert (F : filter (has_option (a ++ ($"example", text) :: b)) flag_names = filter (has_option (a ++ b)) flag_names).
  { unfold flag_names. cbn [filter]. rewrite !H by (vm_compute; reflexivity). reflexivity. }
  assert (S : signature E (a ++ ($"example", text) :: b) name = signature E (a ++ b) name).
  { unfold signature. rewrite F. unfold name_end, class_of. rewrite !H, !T by (vm_compute; reflexivity). reflexivity. }
  unfold field_definition. rewrite S. unfold details, aspect_names. cbn [flat_map].
  unfold class_of. rewrite !H, !T by (vm_compute; reflexivity). reflexivity.
Qed.
(** @example
Example C95_example_example :
  field_definition env0 ([($"type", Some $"text")] ++ ($"example", Some $"bingo") :: [($"title", Some $"Word")]) (Some $"word") []
  = field_definition env0 [($"type", Some $"text"); ($"title", Some $"Word")] (Some $"word") [].
Proof. vm_compute. reflexivity. Qed.
@end *)

(** @prop C95 The directive "structure" shows its argument, and below it the nested content unchanged
    if there is any. *)
Lemma structure_shows :
  forall argument content,
    exists header, words_in header = argument
    /\ structure_definition argument content
       = header :: match content with [] => [] | _ => [DNode $"block_quote" [$"structure-block"] content] end.
Proof.
  intros argument content. eexists. split; [|reflexivity]. cbn [words_in flat_map].
  unfold strong. now rewrite words_element, app_nil_r.
Qed.
(** @example
Example C95_structure_example :
  structure_definition $"User" [DText $"x"]
  = [DNode $"paragraph" [$"structure-header"] [DNode $"strong" [] [DText $"User"]];
     DNode $"block_quote" [$"structure-block"] [DText $"x"]].
Proof. reflexivity. Qed.
@end *)
