(** * Proofs about [repr] of fields and the names of zones. *)
(* @imports Spec Demo BuildSpec ReprSpec *)
From Verif Require Import PyBaseFacts NumFacts NumProofs Demo Induct ProcessFacts ConFacts DescFacts BuildProofs FmtProofs Repr ReprSpec.
Open Scope nat_scope.

Definition pair_text (a : str * str) : str := fst a ++ $"=" ++ snd a.

(** The aspects [own] are what [S] says, the labels being among [L]. *)
Definition good (L : list str) (S : str -> str -> Prop) (own : list str) : Prop :=
  (forall x t, S x t -> In x L)
  /\ exists l, own = map pair_text l /\ NoDup (map fst l)
     /\ (forall a, In a l -> S (fst a) (snd a))
     /\ (forall x t, S x t -> In x (map fst l)).

Lemma good_ext L S S' own : good L S own -> (forall x t, S x t <-> S' x t) -> good L S' own.
Proof.
  intros [H (l & -> & N & A & B)] Q. split; [intros x t K; apply (H x t), Q, K|].
  exists l. split; [reflexivity|]. split; [exact N|]. split; [intros a I; apply Q, A, I|].
  intros x t K. apply (B x t), Q, K.
Qed.

Lemma good_none : good [] (fun _ _ => False) [].
Proof.
  split; [intros x t []|]. exists []. split; [reflexivity|]. split; [constructor|]. split; [intros a []|intros x t []].
Qed.

Lemma good_one label t0 (S : str -> str -> Prop) :
  S label t0 -> (forall x t, S x t -> x = label) -> good [label] S [label ++ $"=" ++ t0].
Proof.
  intros H Q. split; [intros x t K; left; symmetry; apply (Q x t K)|].
  exists [(label, t0)]. split; [reflexivity|]. split; [repeat constructor; intros []|]. split.
  - intros a [<-|[]]. exact H.
  - intros x t K. left. symmetry. apply (Q x t K).
Qed.

Lemma good_no label (S : str -> str -> Prop) : (forall x t, S x t -> False) -> good [label] S [].
Proof.
  intros Q. split; [intros x t K; destruct (Q x t K)|]. exists []. split; [reflexivity|]. split; [constructor|].
  split; [intros a []|]. intros x t K. destruct (Q x t K).
Qed.

Definition apart (L M : list str) : bool := forallb (fun x => negb (smem x M)) L.

Lemma good_app L M S T a b : apart L M = true ->
  good L S a -> good M T b -> good (L ++ M) (fun x t => S x t \/ T x t) (a ++ b).
Proof.
  intros D [HS (l & -> & N & A & B)] [HT (m & -> & N' & A' & B')]. unfold apart in D. rewrite forallb_forall in D.
  split. { intros x t [K|K]; apply in_or_app; [left; apply (HS x t K)|right; apply (HT x t K)]. }
  exists (l ++ m). split; [rewrite map_app; reflexivity|]. rewrite map_app. split.
  - apply NoDup_app'; [exact N|exact N'|].
    intros x I J. apply in_map_iff in I. destruct I as (u & <- & I). apply in_map_iff in J. destruct J as (w & Q & J).
    specialize (D (fst u) (HS _ _ (A u I))). assert (K := HT _ _ (A' w J)). rewrite Q in K.
    apply negb_true_iff in D. destruct (smem (fst u) M) eqn:Z; [discriminate|].
    assert (smem (fst u) M = true) by (apply smem_In; exact K). congruence.
  - split.
    + intros u I. apply in_app_or in I. destruct I as [I|I]; [left; apply A, I|right; apply A', I].
    + intros x t [K|K]; apply in_or_app; [left; apply (B x t K)|right; apply (B' x t K)].
Qed.

Lemma good_given {A} name (o : option A) show : good [name] (given_as name o show) (maybe name show o).
Proof.
  destruct o as [a|]; cbn [maybe].
  - apply good_one; [split; [reflexivity|exists a; split; reflexivity]|intros x t [-> _]; reflexivity].
  - apply good_no. intros x t [_ (a & H & _)]. discriminate.
Qed.

Lemma good_flag name value (b : bool) (P : Prop) : (b = true <-> P) ->
  good [name] (set_when name value P) (flagged b (name ++ $"=" ++ value)).
Proof.
  intros Q. unfold flagged. destruct b.
  - apply good_one; [split; [reflexivity|split; [reflexivity|apply Q; reflexivity]]|intros x t [-> _]; reflexivity].
  - apply good_no. intros x t (_ & _ & H). apply Q in H. discriminate.
Qed.

Lemma none_given {A} name show x t : given_as name (@None A) show x t <-> False.
Proof. split; [intros [_ (a & H & _)]; discriminate|intros []]. Qed.

Lemma given_map {A B} name (f : A -> B) (o : option A) show x t :
  given_as name o (fun a => show (f a)) x t <-> given_as name (option_map f o) show x t.
Proof.
  destruct o as [a|]; cbn [option_map]; [|rewrite !none_given; tauto].
  split; intros [Hx (b & [= <-] & ->)]; (split; [exact Hx|]); eexists; split; reflexivity.
Qed.

Lemma good_bounds {A} repr (f : A -> val) mn mx :
  good ([$"minimum"] ++ [$"maximum"])
    (fun x t => given_as $"minimum" (option_map f mn) repr x t \/ given_as $"maximum" (option_map f mx) repr x t)
    (bounds_text repr f mn mx).
Proof.
  unfold bounds_text. apply good_app; [reflexivity| |].
  - refine (good_ext _ _ _ _ (good_given _ _ _) _). intros x t. apply given_map.
  - refine (good_ext _ _ _ _ (good_given _ _ _) _). intros x t. apply given_map.
Qed.

Lemma good_lengths repr mn mx :
  good ([$"min_length"] ++ [$"max_length"])
    (fun x t => given_as $"min_length" mn (fun z => repr (VInt z)) x t
                \/ given_as $"max_length" mx (fun z => repr (VInt z)) x t)
    (lengths repr mn mx).
Proof. unfold lengths. apply good_app; [reflexivity| |]; apply good_given. Qed.

Definition own_labels : list str :=
  [$"minimum"; $"maximum"; $"min_length"; $"max_length"; $"utc"; $"multiple"; $"extended"; $"strip"; $"enumeration";
   $"key"; $"value"; $"required_keys"; $"item"; $"unique"; $"structure"; $"polymorphic_on"; $"strict"; $"key_order";
   $"valid_surrogates"; $"segments"; $"values"; $"fields"].

Lemma good_own L S S' own : good L S own -> forallb (fun x => smem x own_labels) L = true ->
  (forall x t, S x t <-> S' x t) -> good own_labels S' own.
Proof.
  intros G F Q. apply (good_ext _ _ _ _ G) in Q. destruct Q as [H R]. split; [|exact R].
  intros x t K. rewrite forallb_forall in F. apply smem_In, F, (H x t K).
Qed.

Ltac ext := intros ? ?; unfold says_own; cbn [limits length_limits fst snd]; rewrite ?none_given; tauto.

Lemma tuple_says E repr undef l s :
  each snd (map (fun g => (g, field_repr E repr undef g)) l) = Ok s -> of_tuple E repr undef l (tuple_text s).
Proof.
  rewrite each_map. cbn [snd]. intros H. apply each_ok in H. exists s. split; [exact H|].
  assert (Q : length l = length s) by (clear -H; induction H; cbn; congruence). rewrite Q. destruct s as [|x [|y s]]; reflexivity.
Qed.

Lemma fields_say E repr undef l s :
  fields_text repr (map (fun kf => (fst kf, (snd kf, field_repr E repr undef (snd kf)))) l) = Ok s ->
  listed (of_entry E repr undef) $"{" $"}" l s.
Proof.
  unfold fields_text. rewrite each_map. cbn [fst snd]. intros H. apply bind_Ok in H. destruct H as (items & H & Q).
  injection Q as <-. exists (map (fun kv => fst kv ++ $": " ++ snd kv) items). split; [|reflexivity].
  apply each_ok in H. clear -H. induction H as [|kf kv l items H _ IH]; [constructor|]. cbn [map]. constructor; [|exact IH].
  apply bind_Ok in H. destruct H as (s & H & Q). injection Q as <-. exists s. split; [exact H|reflexivity].
Qed.

Lemma variants_say E repr undef l s :
  each (fun vl => do s <- fields_text repr (snd vl); Ok (repr (fst vl), s))
    (map (fun vl => (fst vl, map (fun kf => (fst kf, (snd kf, field_repr E repr undef (snd kf)))) (snd vl))) l) = Ok s ->
  listed (of_variant E repr undef) $"{" $"}" l (dict_text s).
Proof.
  rewrite each_map. cbn [fst snd]. intros H. exists (map (fun kv => fst kv ++ $": " ++ snd kv) s). split; [|reflexivity].
  apply each_ok in H. induction H as [|kf kv l items H _ IH]; [constructor|]. cbn [map]. constructor; [|exact IH].
  apply bind_Ok in H. destruct H as (r & H & Q). injection Q as <-. exists r. split; [apply fields_say, H|reflexivity].
Qed.

Lemma sorted_texts names r :
  sort_items [] (map (fun x => (x, tt)) (map VStr names)) = Ok r ->
  exists sorted, sorted_names names sorted /\ map fst r = map VStr sorted.
Proof.
  intros H. destruct (sort_texts (map (fun x => (x, tt)) (map VStr names)) []) as (r' & H' & P & S).
  - apply Forall_forall. intros y Hy. rewrite map_map in Hy. apply in_map_iff in Hy. destruct Hy as (b & <- & _). exists b. reflexivity.
  - constructor.
  - constructor.
  - rewrite H in H'. injection H' as <-. cbn [app] in P.
    exists (map (fun y => match fst y with VStr b => b | _ => [] end) r). split.
    + split.
      * rewrite <- (Permutation_map _ P), !map_map. cbn [fst]. rewrite map_id. reflexivity.
      * clear -S. induction S as [|x r S IH F]; [constructor|]. cbn [map]. constructor; [exact IH|].
        rewrite Forall_forall in *. intros z Hz. apply in_map_iff in Hz. destruct Hz as (y & <- & Hy).
        destruct (F y Hy) as (a & b & -> & -> & Hle). exact Hle.
    + rewrite map_map. apply map_ext_in. intros y Hy. apply (Permutation_in _ (Permutation_sym P)) in Hy.
      rewrite map_map in Hy. apply in_map_iff in Hy. destruct Hy as (b & <- & _). reflexivity.
Qed.

Lemma own_says E repr undef k own : well_made k ->
  own_aspects E repr (kmap (fun g => (g, field_repr E repr undef g)) k) = Ok own ->
  good own_labels (says_own E repr undef k) own.
Proof.
  assert (J : forall A (a b : A), Ok a = Ok b -> a = b) by (intros A a b Hab; now injection Hab).
  intros W H. destruct k as [ |mn mx| |mn mx|mn mx u|mn mx| |mu ex mn mx|l ig| |mn mx|mn mx|v ko rk| |it mn mx u|d strict order|valid|pat mn mx st|mn mx|seg|l|l| ];
    cbn [kmap own_aspects] in H.
  all: try (apply J in H; subst own; eapply good_own; [exact good_none|reflexivity|ext]).
  - apply J in H; subst own. eapply good_own; [apply good_lengths|reflexivity|ext].
  - apply J in H; subst own. eapply good_own; [apply good_bounds|reflexivity|ext].
  - apply J in H; subst own. eapply good_own; [apply good_app; [|apply good_bounds|apply (good_flag $"utc" $"True" u (u = true))]; [reflexivity|tauto]|reflexivity|ext].
  - apply J in H; subst own. eapply good_own; [apply good_bounds|reflexivity|ext].
  - apply J in H; subst own. eapply good_own.
    + apply good_app; [|apply (good_flag $"multiple" $"True" mu (mu = true)); tauto|].
      2:{ apply good_app; [|apply (good_flag $"extended" $"True" ex (ex = true)); tauto|].
          2:{ apply good_app; [|apply good_lengths|apply (good_flag $"strip" $"False" true True); tauto]. reflexivity. }
          reflexivity. }
      reflexivity.
    + reflexivity.
    + ext.
  - apply J in H; subst own. eapply good_own.
    + apply (good_one $"enumeration" ($"[" ++ join $", " (map repr l) ++ $"]")
               (fun x t => x = $"enumeration" /\ t = $"[" ++ join $", " (map repr l) ++ $"]")); [tauto|intros x t [-> _]; reflexivity].
    + reflexivity.
    + ext.
  - apply J in H; subst own. eapply good_own; [apply good_bounds|reflexivity|ext].
  - apply J in H; subst own. eapply good_own; [apply good_bounds|reflexivity|ext].
  - apply bind_Ok in H. destruct H as (a & Ha & H). apply bind_Ok in H. destruct H as (s & Hs & H).
    apply bind_Ok in H. destruct H as (c & Hc & H). apply J in H; subst own. cbn [snd] in Hs.
    eapply good_own.
    + apply good_app with (L := [$"key"]) (S := fun x t => x = $"key" /\ exists g, ko = Some g /\ of_field E repr undef g t); [| |
        apply good_app with (L := [$"value"]) (S := fun x t => x = $"value" /\ of_field E repr undef v t); [| |
        refine (_ : good [$"required_keys"] (fun x t => x = $"required_keys" /\ exists names sorted,
               rk = Some (map VStr names) /\ names <> [] /\ sorted_names names sorted
               /\ t = repr (VList (map VStr sorted))) _)]].
      * reflexivity.
      * destruct ko as [g|]; cbn [option_map] in Ha.
        -- apply bind_Ok in Ha. destruct Ha as (r & Hr & Ha). cbn [snd] in Hr. apply J in Ha. subst a.
           apply (good_one $"key"); [split; [reflexivity|exists g; split; [reflexivity|exact Hr]]|intros x t [-> _]; reflexivity].
        -- apply J in Ha. subst a. apply good_no. intros x t (_ & g & Q & _). discriminate.
      * reflexivity.
      * apply (good_one $"value"); [split; [reflexivity|exact Hs]|intros x t [-> _]; reflexivity].
      * destruct rk as [ks|].
        2:{ apply J in Hc. subst c. apply good_no. intros x t (_ & names & sorted & Q & _). discriminate. }
        destruct W as (names & ->). destruct names as [|n0 names].
        { apply J in Hc. subst c. apply good_no. intros x t (_ & names & sorted & Q & N & _). destruct names; [congruence|discriminate]. }
        change (map VStr (n0 :: names)) with (VStr n0 :: map VStr names) in Hc. cbn iota in Hc.
        apply bind_Ok in Hc. destruct Hc as (r & Hr & Hc). apply J in Hc. subst c.
        destruct (sorted_texts (n0 :: names) r Hr) as (sorted & Hsort & ->).
        apply (good_one $"required_keys"); [|intros x t [-> _]; reflexivity].
        split; [reflexivity|]. exists (n0 :: names), sorted. split; [reflexivity|]. split; [discriminate|]. split; [exact Hsort|reflexivity].
    + reflexivity.
    + ext.
  - apply bind_Ok in H. destruct H as (s & Hs & H). apply J in H; subst own. cbn [snd] in Hs.
    eapply good_own.
    + apply good_app with (L := [$"item"]) (S := fun x t => x = $"item" /\ of_field E repr undef it t); [| |
        apply good_app; [|apply good_lengths|apply (good_flag $"unique" $"True" u (u = true)); tauto]].
      * reflexivity.
      * apply (good_one $"item"); [split; [reflexivity|exact Hs]|intros x t [-> _]; reflexivity].
      * reflexivity.
    + reflexivity.
    + ext.
  - apply bind_Ok in H. destruct H as (a & Ha & H). apply J in H; subst own.
    eapply good_own.
    + apply good_app with (L := [$"structure"] ++ [$"polymorphic_on"])
        (S := fun x t => (x = $"structure" /\ match d with
                                  | SPlain l => listed (of_entry E repr undef) $"{" $"}" l t
                                  | SPoly _ variants => listed (of_variant E repr undef) $"{" $"}" variants t
                                  end)
         \/ (x = $"polymorphic_on" /\ exists q k' variants,
               d = SPoly (Fld q k') variants
               /\ t = repr (match p_name q with Some s => VStr s | None => VNone end))); [| |
        apply good_app; [|apply (good_flag $"strict" $"False" (negb strict) (strict = false)); destruct strict; cbn; split; congruence|
        refine (_ : good [$"key_order"] (fun x t => x = $"key_order" /\ exists names,
               order = Some names /\ names <> [] /\ t = repr (VList (map VStr names))) _)]].
      * reflexivity.
      * destruct d as [l|on vs]; cbn [sdef_map] in Ha.
        -- apply bind_Ok in Ha. destruct Ha as (s & Hs & Ha). apply J in Ha. subst a.
           change [$"structure=" ++ s] with ([$"structure=" ++ s] ++ []). apply good_app; [reflexivity| |].
           ++ apply (good_one $"structure"); [split; [reflexivity|apply fields_say, Hs]|intros x t [-> _]; reflexivity].
           ++ apply good_no. intros x t (_ & q & k' & vs & Q & _). discriminate.
        -- apply bind_Ok in Ha. destruct Ha as (s & Hs & Ha). apply J in Ha. subst a.
           destruct W as (q & k' & ->). cbn [fst].
           change [?a; ?b] with ([a] ++ [b]). apply good_app; [reflexivity| |].
           ++ apply (good_one $"structure"); [split; [reflexivity|apply variants_say, Hs]|intros x t [-> _]; reflexivity].
           ++ apply (good_one $"polymorphic_on"); [|intros x t [-> _]; reflexivity].
              split; [reflexivity|]. exists q, k', vs. split; reflexivity.
      * reflexivity.
      * destruct order as [[|n0 names]|].
        -- apply good_no. intros x t (_ & names & [= <-] & Q & _). congruence.
        -- apply (good_one $"key_order"); [|intros x t [-> _]; reflexivity].
           split; [reflexivity|]. exists (n0 :: names). split; [reflexivity|]. split; [discriminate|reflexivity].
        -- apply good_no. intros x t (_ & names & Q & _). discriminate.
    + reflexivity.
    + ext.
  - destruct valid as [[|n0 names]|].
    + apply J in H; subst own. eapply good_own; [exact good_none|reflexivity|].
      intros x t. unfold says_own. cbn [limits length_limits fst snd]. rewrite !none_given. split; [tauto|].
      intros [[]|[[]|[[]|[[]|(_ & names & sorted & [= <-] & Q & _)]]]]. congruence.
    + apply J in H; subst own. eapply good_own.
      * apply (good_one $"valid_surrogates" (repr (VList (map VStr (sort_str (n0 :: names)))))
          (fun x t => x = $"valid_surrogates" /\ exists names' sorted,
           Some (n0 :: names) = Some names' /\ names' <> [] /\ sorted_names names' sorted /\ t = repr (VList (map VStr sorted)))).
        -- split; [reflexivity|]. exists (n0 :: names), (sort_str (n0 :: names)). split; [reflexivity|]. split; [discriminate|].
           split; [apply sort_str_sorted|reflexivity].
        -- intros x t [-> _]. reflexivity.
      * reflexivity.
      * ext.
    + apply J in H; subst own. eapply good_own; [exact good_none|reflexivity|].
      intros x t. unfold says_own. cbn [limits length_limits fst snd]. rewrite !none_given. split; [tauto|].
      intros [[]|[[]|[[]|[[]|(_ & names & sorted & Q & _)]]]]. discriminate.
  - apply J in H; subst own. eapply good_own; [apply good_app; [|apply good_lengths|apply (good_flag $"strip" $"False" (negb st) (st = false))]; [reflexivity|destruct st; cbn; split; congruence]|reflexivity|ext].
  - apply J in H; subst own. eapply good_own; [apply good_bounds|reflexivity|ext].
  - apply J in H; subst own. eapply good_own; [apply good_given|reflexivity|ext].
  - apply bind_Ok in H. destruct H as (s & Hs & H). apply J in H; subst own. apply tuple_says in Hs. eapply good_own.
    + apply (good_one $"values" (tuple_text s) (fun x t => x = $"values" /\ of_tuple E repr undef l t)); [tauto|intros x t [-> _]; reflexivity].
    + reflexivity.
    + ext.
  - apply bind_Ok in H. destruct H as (s & Hs & H). apply J in H; subst own. apply tuple_says in Hs. eapply good_own.
    + apply (good_one $"fields" (tuple_text s) (fun x t => x = $"fields" /\ of_tuple E repr undef l t)); [tauto|intros x t [-> _]; reflexivity].
    + reflexivity.
    + ext.
Qed.

Lemma percent_r_shown repr v t : percent_r repr v = Ok t <-> shown_r repr v t.
Proof.
  split.
  - intros H. destruct v; cbn [percent_r] in H;
      try (injection H as <-; apply shown_plain; intros; discriminate).
    destruct l as [|x [|y l]]; [discriminate| |discriminate]. injection H as <-. apply shown_single.
  - intros [w N|x]; [|reflexivity]. destruct w; try reflexivity. destruct (N l eq_refl).
Qed.

Lemma percent_r_ok repr v : (exists t, percent_r repr v = Ok t) <-> printable v.
Proof.
  split.
  - intros [t H] l ->. destruct l as [|x [|y l]]; [discriminate|reflexivity|discriminate].
  - intros P. destruct v; try (eexists; reflexivity). specialize (P l eq_refl).
    destruct l as [|x [|y l]]; [discriminate| |discriminate]. eexists; reflexivity.
Qed.

(** @prop C89 The repr of a field is the name of its class and, in parentheses, what it says of the field:
    its name, the parameters of its class, whether it has a constant, its default, its flags and its
    title, each once and only if it is set; fields within it are shown by their own repr. *)
Lemma repr_says :
  forall E repr undef p k s,
    well_made k -> field_repr E repr undef (Fld p k) = Ok s ->
    exists l, s = class_label k ++ $"(" ++ join $", " (map (fun a => fst a ++ $"=" ++ snd a) l) ++ $")"
              /\ NoDup (map fst l)
              /\ (forall a, In a l -> says E repr undef p k (fst a) (snd a))
              /\ (forall label text, says E repr undef p k label text -> In label (map fst l)).
Proof.
  assert (J : forall A (a b : A), Ok a = Ok b -> a = b) by (intros A a b Hab; now injection Hab).
  intros E repr undef p k s W H. cbn [field_repr] in H.
  apply bind_Ok in H. destruct H as (own & Ho & H). apply bind_Ok in H. destruct H as (dflt & Hd & H).
  apply bind_Ok in H. destruct H as (title & Ht & H). apply J in H. subst s.
  apply own_says in Ho; [|exact W].
  match goal with |- context [join $", " ?parts] => set (aspects := parts) end.
  match type of (eq_refl aspects) with _ => idtac end.
  assert (G : exists L, good L (says E repr undef p k) aspects).
  { eexists. unfold aspects. eapply good_ext.
    - apply good_app with (L := [$"name"]) (S := fun x t => x = $"name" /\ exists s, p_name p = Some s /\ s <> [] /\ t = repr (VStr s)); [| |
      apply good_app; [|exact Ho|
      apply good_app; [|apply (good_flag $"constant" $"True" (truthy (p_constant p)) (truthy (p_constant p) = true)); tauto|
      apply good_app with (L := [$"default"]) (S := fun x t => x = $"default" /\ p_default p <> VNone /\ shown_r repr (p_default p) t); [| |
      apply good_app; [|apply (good_flag $"nonnull" $"True" (p_nonnull p) (p_nonnull p = true)); tauto|
      apply good_app; [|apply (good_flag $"required" $"True" (p_required p) (p_required p = true)); tauto|
      apply good_app; [|apply (good_flag $"ignore_null" $"True" (p_ignore_null p) (p_ignore_null p = true)); tauto|
      refine (_ : good [$"title"] (fun x t => x = $"title" /\ truthy (p_title p) = true /\ shown_r repr (p_title p) t) _)]]]]]]].
      + reflexivity.
      + destruct (p_name p) as [[|c s]|] eqn:N.
        * apply good_no. intros x t (_ & s & [= <-] & Q & _). congruence.
        * apply (good_one $"name"); [|intros x t [-> _]; reflexivity].
          split; [reflexivity|]. exists (c :: s). split; [reflexivity|]. split; [discriminate|reflexivity].
        * apply good_no. intros x t (_ & s & Q & _). discriminate.
      + reflexivity.
      + reflexivity.
      + reflexivity.
      + destruct (is_none (p_default p)) eqn:N.
        * apply J in Hd. subst dflt. apply good_no. intros x t (_ & Q & _). destruct (p_default p); try discriminate N. congruence.
        * apply bind_Ok in Hd. destruct Hd as (r & Hr & Hd). apply J in Hd. subst dflt.
          apply (good_one $"default"); [|intros x t [-> _]; reflexivity].
          split; [reflexivity|]. split; [intros Q; rewrite Q in N; discriminate|apply percent_r_shown, Hr].
      + reflexivity.
      + reflexivity.
      + reflexivity.
      + destruct (truthy (p_title p)) eqn:T.
        * apply bind_Ok in Ht. destruct Ht as (r & Hr & Ht). apply J in Ht. subst title.
          apply (good_one $"title"); [|intros x t [-> _]; reflexivity].
          split; [reflexivity|]. split; [reflexivity|apply percent_r_shown, Hr].
        * apply J in Ht. subst title. apply good_no. intros x t (_ & Q & _). discriminate.
    - intros x t. unfold says. tauto. }
  destruct G as (L & _ & l & Q & N & A & B). exists l. split; [rewrite Q; reflexivity|].
  split; [exact N|]. split; [exact A|exact B].
Qed.

(** @example
Example C89_repr_example :
  let r := fun v => match v with VStr s => $"'" ++ s ++ $"'" | VInt z => Z_text z | _ => $"?" end in
  let f := Fld p_req (KSequence (Fld (p_named $"n") (KInteger (Some 1%Z) None)) None (Some 5%Z) true) in
  well_made (KSequence (Fld (p_named $"n") (KInteger (Some 1%Z) None)) None (Some 5%Z) true)
  /\ field_repr env0 r (fun _ => []) f
     = Ok $"Sequence(item=Integer(name='n', minimum=1), max_length=5, unique=True, required=True)".
Proof. split; [exact I|]. vm_compute. reflexivity. Qed.
@end *)

(** @prop C89 The name of the class is, in small letters, the type that describe and reconstruct use. *)
Lemma repr_class :
  forall ul (k : kind), lower ul (class_label k) = kind_type k.
Proof.
  intros ul k. destruct k; reflexivity.
Qed.

(** @example
Example C89_class_example : lower (fun _ => []) $"DateTime" = $"datetime" /\ class_label (KUUID : kind) = $"UUID".
Proof. split; reflexivity. Qed.
@end *)

Lemma each_ok_iff {A B} (f : A -> res B) l : (exists r, each f l = Ok r) <-> (forall a, In a l -> exists b, f a = Ok b).
Proof.
  induction l as [|a l IH]; cbn [each].
  - split; [intros _ a []|intros _; eexists; reflexivity].
  - split.
    + intros [r H]. apply bind_Ok in H. destruct H as (b & Hb & H). apply bind_Ok in H. destruct H as (bs & Hbs & _).
      intros a' [<-|I]; [exists b; exact Hb|]. apply IH; [exists bs; exact Hbs|exact I].
    + intros H. destruct (H a (or_introl eq_refl)) as [b Hb]. destruct (proj2 IH (fun a' I => H a' (or_intror I))) as [bs Hbs].
      rewrite Hb. cbn [bind]. rewrite Hbs. eexists; reflexivity.
Qed.

Lemma bind_ok_iff {A B} (x : res A) (f : A -> res B) : (forall a, exists b, f a = Ok b) ->
  ((exists b, bind x f = Ok b) <-> exists a, x = Ok a).
Proof.
  intros T. split.
  - intros [b H]. apply bind_Ok in H. destruct H as (a & H & _). exists a. exact H.
  - intros [a ->]. cbn [bind]. apply T.
Qed.

Lemma fields_ok E repr undef l :
  (exists s, fields_text repr (map (fun kf => (fst kf, (snd kf, field_repr E repr undef (snd kf)))) l) = Ok s)
  <-> (forall g, In g (map snd l) -> exists s, field_repr E repr undef g = Ok s).
Proof.
  unfold fields_text. rewrite bind_ok_iff by (intros; eexists; reflexivity). rewrite each_map, each_ok_iff. cbn [fst snd].
  split.
  - intros H g I. apply in_map_iff in I. destruct I as (kf & <- & I). specialize (H kf I). 
    rewrite bind_ok_iff in H by (intros; eexists; reflexivity). exact H.
  - intros H kf I. rewrite bind_ok_iff by (intros; eexists; reflexivity). apply H, in_map, I.
Qed.

Lemma own_ok E repr undef k : well_made k ->
  ((exists own, own_aspects E repr (kmap (fun g => (g, field_repr E repr undef g)) k) = Ok own)
   <-> (forall g, In g (shown_fields k) -> exists s, field_repr E repr undef g = Ok s)).
Proof.
  intros W. destruct k as [ |mn mx| |mn mx|mn mx u|mn mx| |mu ex mn mx|l ig| |mn mx|mn mx|v ko rk| |it mn mx u|d strict order|valid|pat mn mx st|mn mx|seg|l|l| ];
    cbn [kmap own_aspects shown_fields].
  all: try (split; [intros _ g []|intros _; eexists; reflexivity]).
  - assert (S : exists c, match rk with
              | Some ((_ :: _) as ks) =>
                  do l <- sort_items [] (map (fun x => (x, tt)) ks);
                  Ok [$"required_keys=" ++ repr (VList (map fst l))]
              | _ => Ok []
              end = Ok c).
    { destruct rk as [[|x ks]|]; try (eexists; reflexivity). destruct W as (names & ->).
      destruct (sort_texts (map (fun x => (x, tt)) (map VStr names)) []) as (r & -> & _ & _).
      - apply Forall_forall. intros y Hy. rewrite map_map in Hy. apply in_map_iff in Hy. destruct Hy as (b & <- & _). exists b. reflexivity.
      - constructor.
      - constructor.
      - eexists; reflexivity. }
    destruct S as [c ->]. cbn [snd]. destruct ko as [g|]; cbn [option_map snd].
    + split.
      * intros [own H]. apply bind_Ok in H. destruct H as (a & Ha & H). apply bind_Ok in H. destruct H as (s & Hs & _).
        apply bind_Ok in Ha. destruct Ha as (t & Ht & _). intros h [<-|[<-|[]]]; [exists s; exact Hs|exists t; exact Ht].
      * intros H. destruct (H v (or_introl eq_refl)) as [s ->]. destruct (H g (or_intror (or_introl eq_refl))) as [t ->].
        eexists; reflexivity.
    + split.
      * intros [own H]. apply bind_Ok in H. destruct H as (a & Ha & H). apply bind_Ok in H. destruct H as (s & Hs & _).
        intros h [<-|[]]. exists s; exact Hs.
      * intros H. destruct (H v (or_introl eq_refl)) as [s ->]. eexists; reflexivity.
  - cbn [snd]. rewrite bind_ok_iff by (intros; eexists; reflexivity). split; [intros H g [<-|[]]; exact H|intros H; apply H; left; reflexivity].
  - rewrite bind_ok_iff by (intros; eexists; reflexivity). destruct d as [l|on vs]; cbn [sdef_map].
    + rewrite bind_ok_iff by (intros; eexists; reflexivity). apply fields_ok.
    + rewrite bind_ok_iff by (intros; eexists; reflexivity). rewrite each_map, each_ok_iff. cbn [fst snd]. split.
      * intros H g I. apply in_flat_map in I. destruct I as (vl & I & K). specialize (H vl I).
        rewrite bind_ok_iff in H by (intros; eexists; reflexivity). apply (proj1 (fields_ok _ _ _ _) H g K).
      * intros H vl I. rewrite bind_ok_iff by (intros; eexists; reflexivity). apply fields_ok. intros g K. apply H.
        apply in_flat_map. exists vl. split; assumption.
  - destruct valid as [[|n0 names]|]; (split; [intros _ g []|intros _; eexists; reflexivity]).
  - rewrite bind_ok_iff by (intros; eexists; reflexivity). rewrite each_map, each_ok_iff. cbn [snd]. reflexivity.
  - rewrite bind_ok_iff by (intros; eexists; reflexivity). rewrite each_map, each_ok_iff. cbn [snd]. reflexivity.
Qed.

Lemma shown_subfield k g : In g (shown_fields k) -> In g (subfields k).
Proof.
  destruct k as [ | | | | | | | | | | | |v ko rk| |it mn mx u|[l|on vs] strict order| | | | |l|l| ]; cbn [shown_fields subfields]; try (intros H; exact H).
  - destruct ko; exact (fun H => H).
  - cbn [sdef_fields]. intros H. right. exact H.
Qed.

(** @prop C89 As long as the required keys of the maps in it are texts, a field has a repr exactly if no
    default and no title in it is a tuple of other than one value. *)
Lemma repr_exists_partial :
  forall E repr undef f,
    (forall p k, shown_in (Fld p k) f -> well_made k) ->
    ((exists s, field_repr E repr undef f = Ok s)
     <-> forall p k, shown_in (Fld p k) f ->
           printable (p_default p) /\ (truthy (p_title p) = true -> printable (p_title p))).
Proof.
  intros E repr undef f. induction f as [i|p k IH] using field_ind'.
  - intros _. split; [intros _ p k H; inversion H|intros _; eexists; reflexivity].
  - intros W. cbn [field_repr].
    assert (D : (exists d, (if is_none (p_default p) then Ok [] else do s <- percent_r repr (p_default p); Ok [$"default=" ++ s]) = Ok d)
                <-> printable (p_default p)).
    { destruct (is_none (p_default p)) eqn:N.
      - destruct (p_default p); try discriminate N. split; [intros _ l Q; discriminate|intros _; eexists; reflexivity].
      - rewrite bind_ok_iff by (intros; eexists; reflexivity). apply percent_r_ok. }
    assert (T : (exists d, (if truthy (p_title p) then do s <- percent_r repr (p_title p); Ok [$"title=" ++ s] else Ok []) = Ok d)
                <-> (truthy (p_title p) = true -> printable (p_title p))).
    { destruct (truthy (p_title p)).
      - rewrite bind_ok_iff by (intros; eexists; reflexivity). rewrite percent_r_ok. split; [intros H _; exact H|intros H; apply H; reflexivity].
      - split; [intros _ Q; discriminate|intros _; eexists; reflexivity]. }
    assert (O := own_ok E repr undef k (W p k (shown_self _))).
    split.
    + intros [s H]. apply bind_Ok in H. destruct H as (own & Ho & H). apply bind_Ok in H. destruct H as (dflt & Hd & H).
      apply bind_Ok in H. destruct H as (title & Ht & _).
      assert (O' := proj1 O (ex_intro _ own Ho)). intros q k' H.
      inversion H as [|h g p0 k0 I K]; subst.
      * split; [apply D; exists dflt; exact Hd|apply T; exists title; exact Ht].
      * refine (proj1 (IH g (shown_subfield _ _ I) _) (O' g I) q k' K).
        intros p1 k1 K1. apply (W p1 k1). exact (shown_inner _ g p k I K1).
    + intros H. destruct (H p k (shown_self _)) as [H1 H2]. apply D in H1. apply T in H2.
      destruct H1 as [d ->]. destruct H2 as [t ->].
      assert (O' : exists own, own_aspects E repr (kmap (fun g => (g, field_repr E repr undef g)) k) = Ok own).
      { apply O. intros g I. apply (IH g (shown_subfield _ _ I)).
        - intros p1 k1 K1. apply (W p1 k1). exact (shown_inner _ g p k I K1).
        - intros p1 k1 K1. apply (H p1 k1). exact (shown_inner _ g p k I K1). }
      destruct O' as [own ->]. eexists; reflexivity.
Qed.

(** @example
Example C89_repr_exists_partial_example :
  let f := Fld (p_def (VTuple [VInt 5])) (KTuple [Fld p0 (KInteger None None)]) in
  (forall p k, shown_in (Fld p k) f -> well_made k)
  /\ field_repr env0 (fun _ => $"5") (fun _ => []) f = Ok $"Tuple(values=(Integer(),), default=5)".
Proof.
  split; [|vm_compute; reflexivity]. intros p k H. inversion H as [|h g q k0 I K]; subst; [exact Logic.I|].
  destruct I as [<-|[]]. inversion K as [|h' g' q' k' I' K']; subst; [exact Logic.I|destruct I'].
Qed.
@end *)

(** @prop C89 As stated the claim fails: the repr of a Tuple field with a default raises TypeError. *)
Lemma repr_refuted :
  exists f, (forall p k, shown_in (Fld p k) f -> well_made k)
    /\ run0 f Inbound false (VTuple [VInt 1; VInt 2]) = Ok (VTuple [VInt 1; VInt 2])
    /\ forall E repr undef, field_repr E repr undef f = py TypeError.
Proof.
  exists (Fld (p_def (VTuple [VInt 1; VInt 2])) (KTuple [Fld p0 (KInteger None None); Fld p0 (KInteger None None)])).
  split.
  - intros p k H. inversion H as [|h g q k0 I K]; subst; [exact Logic.I|].
    destruct I as [<-|[<-|[]]]; (inversion K as [|h' g' q' k' I' K']; subst; [exact Logic.I|destruct I']).
  - split; [vm_compute; reflexivity|]. intros. reflexivity.
Qed.

(** @example
Example C89_refuted_example :
  exists s, field_repr env0 (fun _ => $"x") (fun _ => [])
    (Fld p0 (KTuple [Fld p0 (KInteger None None); Fld p0 (KInteger None None)])) = Ok s.
Proof. eexists. vm_compute. reflexivity. Qed.
@end *)

(** ** Zones *)

Lemma zone_text m : zone_tzname {| z_name := None; z_offset := Some m |}
  = Ok (signed_two (m / 60) ++ (if (m mod 60 =? 0)%Z then [] else $":" ++ Z_text (m mod 60))).
Proof.
  unfold zone_tzname. cbn [z_name z_offset].
  assert (S : (delta_seconds m + delta_days m * 86400 = 60 * m)%Z).
  { unfold delta_seconds, delta_days. pose proof (Z.div_mod (60 * m) 86400). lia. }
  rewrite S. replace (60 * m / 3600)%Z with (m / 60)%Z by (change 3600%Z with (60 * 60)%Z; rewrite Z.div_mul_cancel_l; lia).
  assert (R : (60 * m mod 3600 / 60 = m mod 60)%Z).
  { change 3600%Z with (60 * 60)%Z. rewrite Zmult_mod_distr_l, Z.mul_comm, Z.div_mul by lia. reflexivity. }
  rewrite R. destruct (m mod 60 =? 0)%Z; [rewrite app_nil_r|]; reflexivity.
Qed.

Lemma text_digits n : (0 <= n)%Z ->
  exists ds, Z_text n = render ds /\ ds <> [] /\ Forall dig ds /\ place_value ds = n.
Proof.
  intros H. exists (digits (Z.abs_N n)). rewrite Z_text_sign. destruct (Z.ltb_spec n 0); [lia|].
  split; [reflexivity|]. split; [apply digits_nonempty|]. split; [apply digits_dig|].
  rewrite <- place_digits, digits_val_digits. lia.
Qed.

Lemma two_pads n : (0 <= n)%Z ->
  (match Z_text n with [_] => $"0" | _ => [] end) ++ Z_text n = two_digits n.
Proof.
  intros H. unfold two_digits. destruct (Z.ltb_spec n 10).
  - assert (C : (n = 0 \/ n = 1 \/ n = 2 \/ n = 3 \/ n = 4 \/ n = 5 \/ n = 6 \/ n = 7 \/ n = 8 \/ n = 9)%Z) by lia.
    repeat (destruct C as [-> | C]; [reflexivity|]). subst n. reflexivity.
  - destruct (text_digits n H) as (ds & -> & N & F & V). destruct ds as [|d [|e ds]]; [congruence| |reflexivity].
    inversion F as [|? ? Hd _]; subst. unfold dig in Hd. cbn [place_value length Z.of_nat Z.pow] in *. lia.
Qed.

Lemma two_ds n : (0 <= n)%Z ->
  exists ds, two_digits n = render ds /\ ds <> [] /\ Forall dig ds /\ place_value ds = n.
Proof.
  intros H. unfold two_digits. destruct (text_digits n H) as (ds & -> & N & F & V). destruct (n <? 10)%Z.
  - exists (0%N :: ds). split; [reflexivity|]. split; [discriminate|]. split; [constructor; [reflexivity|exact F]|].
    cbn [place_value]. lia.
  - exists ds. repeat split; assumption.
Qed.

Lemma signed_pads n : signed_two n = (if (n <? 0)%Z then $"-" else $"+") ++ two_digits (Z.abs n).
Proof. unfold signed_two. rewrite <- two_pads by lia. reflexivity. Qed.

Lemma signed_is_int n : int_text (signed_two n) n.
Proof.
  rewrite signed_pads. destruct (two_ds (Z.abs n) ltac:(lia)) as (ds & -> & N & F & V).
  exists [], (if (n <? 0)%Z then $"-" else $"+"), ds, []. split; [rewrite app_nil_r; reflexivity|].
  split; [constructor|]. split; [constructor|]. split; [exact N|]. split; [exact F|].
  rewrite V. destruct (Z.ltb_spec n 0); [right; split; [reflexivity|lia]|left; split; [right; reflexivity|lia]].
Qed.

Lemma signed_inj a b : signed_two a = signed_two b -> a = b.
Proof.
  intros H. assert (P := parse_int_text (fun _ => None) _ _ (signed_is_int a)). rewrite H in P.
  rewrite (parse_int_text (fun _ => None) _ _ (signed_is_int b)) in P. congruence.
Qed.
Lemma Z_text_inj a b : Z_text a = Z_text b -> a = b.
Proof.
  intros H. assert (P := parse_int_text (fun _ => None) _ _ (integer_str_is_text a)). rewrite H in P.
  rewrite (parse_int_text (fun _ => None) _ _ (integer_str_is_text b)) in P. congruence.
Qed.
Lemma two_inj a b : (0 <= a)%Z -> (0 <= b)%Z -> two_digits a = two_digits b -> a = b.
Proof.
  intros Ha Hb H. destruct (two_ds a Ha) as (ds & Qa & _ & _ & <-). destruct (two_ds b Hb) as (es & Qb & _ & _ & <-).
  rewrite Qa, Qb in H. apply render_inj in H. congruence.
Qed.

Lemma two_colon n : (0 <= n)%Z -> ~ In 58%N (two_digits n).
Proof.
  intros H. destruct (two_ds n H) as (ds & -> & _ & F & _). unfold render. intros I. apply in_map_iff in I.
  destruct I as (d & Q & I). rewrite Forall_forall in F. specialize (F d I). unfold dig in F. lia.
Qed.
Lemma signed_colon n : ~ In 58%N (signed_two n).
Proof.
  rewrite signed_pads. intros I. apply in_app_or in I. destruct I as [I|I]; [|exact (two_colon (Z.abs n) ltac:(lia) I)].
  destruct (n <? 0)%Z; destruct I as [I|[]]; discriminate.
Qed.

Lemma colon_parts a b x y : ~ In 58%N a -> ~ In 58%N b -> a ++ $":" ++ x = b ++ $":" ++ y -> a = b /\ x = y.
Proof.
  revert b. induction a as [|c a IH]; intros [|d b] Ha Hb H.
  - split; [reflexivity|]. now injection H.
  - exfalso. apply Hb. left. now injection H.
  - exfalso. apply Ha. left. now injection H.
  - injection H as -> H. destruct (IH b (fun I => Ha (or_intror I)) (fun I => Hb (or_intror I)) H) as [-> ->]. split; reflexivity.
Qed.
Lemma colon_tail a b x : ~ In 58%N a -> a <> b ++ $":" ++ x.
Proof. intros H Q. apply H. rewrite Q. apply in_or_app. right. left. reflexivity. Qed.

(** @prop C90 Zones without a name whose offsets differ are named differently. *)
Lemma zone_names_differ :
  forall m m' s, zone_tzname {| z_name := None; z_offset := Some m |} = Ok s ->
    zone_tzname {| z_name := None; z_offset := Some m' |} = Ok s -> m = m'.
Proof.
  intros m m' s. rewrite !zone_text. intros H H'. injection H as H. injection H' as H'. rewrite <- H' in H. clear H' s.
  assert (D := Z.div_mod m 60). assert (D' := Z.div_mod m' 60).
  destruct (Z.eqb_spec (m mod 60) 0) as [Z0|Z0], (Z.eqb_spec (m' mod 60) 0) as [Z1|Z1].
  - rewrite !app_nil_r in H. apply signed_inj in H. lia.
  - rewrite app_nil_r in H. destruct (colon_tail _ _ _ (signed_colon _) H).
  - rewrite app_nil_r in H. symmetry in H. destruct (colon_tail _ _ _ (signed_colon _) H).
  - destruct (colon_parts _ _ _ _ (signed_colon _) (signed_colon _) H) as [Q R].
    apply signed_inj in Q. apply Z_text_inj in R. lia.
Qed.

(** @example
Example C90_names_differ_example :
  zone_tzname {| z_name := None; z_offset := Some 330%Z |} = Ok $"+05:30"
  /\ zone_tzname {| z_name := None; z_offset := Some (-300)%Z |} = Ok $"-05".
Proof. split; reflexivity. Qed.
@end *)

(** @prop C90 A zone without a name is called by its offset (sign, hours and, if there are any, minutes,
    with two digits each) exactly if the offset is a number of whole hours, or is positive with at least
    ten minutes above the hour. *)
Lemma zone_named_partial :
  forall m, zone_tzname {| z_name := None; z_offset := Some m |} = Ok (usual_name m)
            <-> (m mod 60 = 0 \/ (0 < m /\ 10 <= m mod 60))%Z.
Proof.
  intros m. rewrite zone_text, signed_pads. unfold usual_name.
  assert (D := Z.div_mod m 60 ltac:(lia)). assert (B := Z.mod_pos_bound m 60 ltac:(lia)).
  assert (DA := Z.div_mod (Z.abs m) 60 ltac:(lia)). assert (BA := Z.mod_pos_bound (Z.abs m) 60 ltac:(lia)).
  destruct (Z.ltb_spec m 0) as [N|N].
  - assert (Q : (m / 60 <? 0)%Z = true) by (apply Z.ltb_lt; lia). rewrite Q.
    destruct (Z.eqb_spec (m mod 60) 0) as [Z0|Z0].
    + assert (R : (Z.abs m mod 60 = 0)%Z) by lia. rewrite R. cbn [Z.eqb].
      replace (Z.abs (m / 60)) with (Z.abs m / 60)%Z by lia. split; [intros _; left; exact Z0|reflexivity].
    + assert (R : (Z.abs m mod 60 <> 0)%Z) by lia. destruct (Z.eqb_spec (Z.abs m mod 60) 0); [lia|].
      split; [|lia]. intros H. exfalso. injection H as H.
      change (two_digits (Z.abs (m / 60)) ++ $":" ++ Z_text (m mod 60) = two_digits (Z.abs m / 60) ++ $":" ++ two_digits (Z.abs m mod 60)) in H.
      destruct (colon_parts _ _ _ _ (two_colon (Z.abs (m / 60)) ltac:(lia)) (two_colon (Z.abs m / 60) ltac:(lia)) H) as [H1 _].
      apply two_inj in H1; lia.
  - assert (Q : (m / 60 <? 0)%Z = false) by (apply Z.ltb_ge; lia). rewrite Q.
    replace (Z.abs m) with m by lia. replace (Z.abs (m / 60)) with (m / 60)%Z by lia.
    destruct (Z.eqb_spec (m mod 60) 0) as [Z0|Z0]; [split; [intros _; left; exact Z0|reflexivity]|].
    split.
    + intros H. injection H as H.
      change (two_digits (m / 60) ++ $":" ++ Z_text (m mod 60) = two_digits (m / 60) ++ $":" ++ two_digits (m mod 60)) in H.
      destruct (colon_parts _ _ _ _ (two_colon (m / 60) ltac:(lia)) (two_colon (m / 60) ltac:(lia)) H) as [_ H1].
      right. split; [lia|]. unfold two_digits in H1. destruct (Z.ltb_spec (m mod 60) 10); [|lia].
      exfalso. apply (f_equal (fun l => length l)) in H1. rewrite app_length in H1. change (length $"0") with 1 in H1. lia.
    + intros [H|[_ H]]; [congruence|]. unfold two_digits at 3. destruct (Z.ltb_spec (m mod 60) 10); [lia|].
      rewrite <- app_assoc. reflexivity.
Qed.

(** @example
Example C90_named_example :
  (345 mod 60 = 0 \/ (0 < 345 /\ 10 <= 345 mod 60))%Z /\ usual_name 345 = $"+05:45"
  /\ zone_tzname {| z_name := None; z_offset := Some 345%Z |} = Ok $"+05:45"
  /\ usual_name (-90) = $"-01:30".
Proof. split; [right; split; [reflexivity|discriminate]|]. split; [reflexivity|]. split; reflexivity. Qed.
@end *)

(** @prop C90 As stated the claim fails: a zone half an hour behind UTC is called "-01:30", and one five
    minutes ahead is called "+00:5". *)
Lemma zone_named_refuted :
  exists m m', zone_tzname {| z_name := None; z_offset := Some m |} = Ok $"-01:30" /\ usual_name m = $"-00:30"
    /\ zone_tzname {| z_name := None; z_offset := Some m' |} = Ok $"+00:5" /\ usual_name m' = $"+00:05".
Proof.
  exists (-30)%Z, 5%Z. repeat split; reflexivity.
Qed.

(** @example
Example C90_refuted_example : usual_name (-30) = $"-00:30" /\ usual_name 600 = $"+10".
Proof. split; reflexivity. Qed.
@end *)

(** @prop C90 A zone with a name is called by it, also by repr unless it is empty; the repr of a zone
    without a name, or with an empty one, gives the offset in seconds modulo a day, so that two of them have the same repr
    exactly if their offsets differ by whole days. *)
Lemma zone_shown :
  (forall name o, zone_tzname {| z_name := Some name; z_offset := o |} = Ok name)
  /\ (forall name o, name <> [] -> zone_repr {| z_name := Some name; z_offset := o |} = Ok name)
  /\ (forall name m, name = None \/ name = Some [] ->
        zone_repr {| z_name := name; z_offset := Some m |}
        = Ok ($"FixedOffsetTimezone(" ++ Z_text (60 * m mod 86400) ++ $")")
        /\ zone_repr {| z_name := name; z_offset := None |} = py AttributeError)
  /\ forall m m', zone_repr {| z_name := None; z_offset := Some m |} = zone_repr {| z_name := None; z_offset := Some m' |}
                  <-> exists d, (m = m' + 1440 * d)%Z.
Proof.
  split; [reflexivity|]. split; [intros [|c s] o N; [congruence|reflexivity]|].
  split; [intros name m [-> | ->]; split; reflexivity|].
  intros m m'. unfold zone_repr. cbn [z_name z_offset]. unfold delta_seconds. split.
  - intros H. assert (D := Z.div_mod (60 * m) 86400 ltac:(lia)). assert (D' := Z.div_mod (60 * m') 86400 ltac:(lia)).
    revert D D' H. generalize (60 * m mod 86400)%Z (60 * m' mod 86400)%Z (60 * m / 86400)%Z (60 * m' / 86400)%Z.
    intros r r' q q' D D' H. injection H as H. apply app_inv_tail in H. apply Z_text_inj in H. exists (q - q')%Z. lia.
  - intros [d ->]. replace (60 * (m' + 1440 * d))%Z with (60 * m' + d * 86400)%Z by lia. rewrite Z.mod_add by lia. reflexivity.
Qed.

(** @example
Example C90_shown_example :
  zone_repr {| z_name := None; z_offset := Some (-30)%Z |} = Ok $"FixedOffsetTimezone(84600)"
  /\ zone_repr {| z_name := Some $"UTC"; z_offset := Some 0%Z |} = Ok $"UTC".
Proof. split; reflexivity. Qed.
@end *)
