(** * The registry of formats (C65), writing and reading files (C66, C67), url encoded fields (C61). *)
(* @imports Spec Demo IoSpec *)
From Coq Require Import ZifyBool ZifyN ZifyNat.
From Verif Require Import PyBaseFacts Spec Demo ProcessFacts StructFacts JsonProofs CsvSpec CsvProofs YamlProofs IoSpec.

(** ** The registry *)

Lemma key_eqb_eq a b : key_eqb a b = true <-> a = b.
Proof.
  destruct a as [s|c], b as [t|d]; cbn; try (split; congruence).
  - rewrite str_eqb_eq. split; congruence.
  - rewrite Nat.eqb_eq. split; congruence.
Qed.

Lemma key_eqb_refl a : key_eqb a a = true.
Proof. apply key_eqb_eq. reflexivity. Qed.

Lemma key_eqb_neq a b : a <> b -> key_eqb a b = false.
Proof. intros H. destruct (key_eqb a b) eqn:E; [|reflexivity]. apply key_eqb_eq in E. contradiction. Qed.

Lemma key_dec (a b : key) : {a = b} + {a <> b}.
Proof. destruct (key_eqb a b) eqn:E; [left; now apply key_eqb_eq|right; intros ->; rewrite key_eqb_refl in E; discriminate]. Qed.

Lemma look_up_put k k' f reg : look_up k (put k' f reg) = if key_eqb k k' then Some f else look_up k reg.
Proof.
  induction reg as [|[j g] reg IH]; cbn [put look_up]; [reflexivity|].
  destruct (key_eqb k' j) eqn:E1; cbn [look_up].
  - apply key_eqb_eq in E1. subst j. destruct (key_eqb k k'); reflexivity.
  - destruct (key_eqb k j) eqn:E2.
    + apply key_eqb_eq in E2. subst j. destruct (key_eqb k k') eqn:E3; [|reflexivity].
      apply key_eqb_eq in E3. subst. rewrite key_eqb_refl in E1. discriminate.
    + exact IH.
Qed.

Lemma put_extensions_keeps f l k : (forall e, In ($"." ++ e) l -> k <> ByText ($"." ++ e)) ->
  forall reg, look_up k (fst (put_extensions f l reg)) = look_up k reg.
Proof.
  induction l as [|[|c e] l IH]; intros H reg; cbn [put_extensions fst]; try reflexivity.
  rewrite IH by (intros; apply H; right; assumption). destruct (N.eqb_spec c 46) as [->|]; [|reflexivity].
  rewrite look_up_put, key_eqb_neq; [reflexivity|]. apply (H e). left. reflexivity.
Qed.

Lemma put_extensions_ok f l reg : ~ In [] l -> snd (put_extensions f l reg) = true.
Proof.
  revert reg. induction l as [|[|c e] l IH]; intros reg H; cbn [put_extensions snd]; [reflexivity|exfalso; apply H; left; reflexivity|].
  apply IH. intros Hin. apply H. right. exact Hin.
Qed.

Lemma put_extensions_bad f l reg : In [] l -> snd (put_extensions f l reg) = false.
Proof.
  revert reg. induction l as [|[|c e] l IH]; intros reg H; cbn [put_extensions snd]; [destruct H|reflexivity|].
  destruct H as [H|H]; [discriminate|]. apply IH. exact H.
Qed.

Lemma put_extensions_finds f l k e : ~ In [] l -> In ($"." ++ e) l -> k = ByText ($"." ++ e) ->
  forall reg, look_up k (fst (put_extensions f l reg)) = Some f.
Proof.
  intros Hne Hin ->. induction l as [|x l IH]; intros reg; [destruct Hin|].
  destruct (in_dec (list_eq_dec N.eq_dec) ($"." ++ e) l) as [Hl|Hl].
  - destruct x as [|c x]; [exfalso; apply Hne; left; reflexivity|]. cbn [put_extensions].
    apply IH; [intros H; apply Hne; right; exact H|exact Hl].
  - destruct Hin as [->|Hin]; [|contradiction]. change ($"." ++ e) with (46%N :: e). cbn [put_extensions].
    rewrite put_extensions_keeps.
    + rewrite N.eqb_refl, look_up_put. change ($"." ++ e) with (46%N :: e). rewrite key_eqb_refl. reflexivity.
    + intros e' He' H. injection H as ->. exact (Hl He').
Qed.

Lemma register_look_up f reg k : registrable f ->
  (keyed f k -> look_up k (fst (register f reg)) = Some f) /\ snd (register f reg) = Ok tt.
Proof.
  intros [Hn He]. unfold register. destruct (fm_name f) as [|c name] eqn:En; [congruence|].
  pose proof (put_extensions_ok f (fm_extensions f) reg He) as Hok.
  pose proof (fun e H => put_extensions_finds f (fm_extensions f) k e He H) as Hfind.
  specialize (fun e H H' => Hfind e H H' reg). revert Hok Hfind.
  destruct (put_extensions f (fm_extensions f) reg) as [reg' b]. cbn [fst snd]. intros -> Hfind. split; [|reflexivity]. intros Hk.
  cbn [fst]. rewrite look_up_put. destruct (key_eqb k (ByClass (fm_class f))) eqn:E1; [reflexivity|].
  destruct (fm_mimetype f) as [|m ms] eqn:Em.
  - rewrite look_up_put. destruct (key_eqb k (ByText (c :: name))) eqn:E2; [reflexivity|].
    destruct Hk as [->|[[H _]|[[e [H1 H2]]| ->]]]; [rewrite En, key_eqb_refl in E2; discriminate|congruence|exact (Hfind e H1 H2)|].
    rewrite key_eqb_refl in E1. discriminate.
  - rewrite !look_up_put. destruct (key_eqb k (ByText (m :: ms))) eqn:E3; [reflexivity|].
    destruct (key_eqb k (ByText (c :: name))) eqn:E2; [reflexivity|].
    destruct Hk as [->|[[_ ->]|[[e [H1 H2]]| ->]]].
    + rewrite En, key_eqb_refl in E2; discriminate.
    + rewrite Em, key_eqb_refl in E3; discriminate.
    + exact (Hfind e H1 H2).
    + rewrite key_eqb_refl in E1. discriminate.
Qed.

(** @prop C65 Whatever is in the registry, a format just created is found by its name, its mimetype, each
    of its extensions with a leading point, and its class. *)
Lemma format_registered :
  forall f reg k,
    registrable f -> keyed f k ->
    snd (register f reg) = Ok tt /\ look_up k (fst (register f reg)) = Some f.
Proof.
  intros f reg k Hr Hk. destruct (register_look_up f reg k Hr) as [H1 H2]. auto.
Qed.

(** @example
Definition f65 : format := {| fm_class := 9; fm_name := $"toml"; fm_mimetype := []; fm_extensions := [$".toml"; $"tml"];
  fm_serialize _ _ := Ok $"x"; fm_unserialize _ _ := Ok VNone |}.
Example C65_registered_example : registrable f65 /\ keyed f65 (ByText $".toml") /\ ~ keyed f65 (ByText $"tml").
Proof.
  split; [|split].
  - split; [discriminate|]. cbn. intuition discriminate.
  - right. right. left. exists $"toml". split; [left; reflexivity|reflexivity].
  - intros [H|[[H _]|[[e [_ H]]|H]]]; try discriminate H. apply H. reflexivity.
Qed.
@end *)

(** @prop C65 Nothing else in the registry changes; and a format without a name is not registered. *)
Lemma format_registered_only :
  forall f reg k,
    (~ keyed f k -> look_up k (fst (register f reg)) = look_up k reg)
    /\ (fm_name f = [] -> fst (register f reg) = reg).
Proof.
  intros f reg k. split.
  - intros Hk. unfold register. destruct (fm_name f) as [|c name] eqn:En; [reflexivity|].
    pose proof (put_extensions_keeps f (fm_extensions f) k) as Hp.
    assert (Hx : forall e, In ($"." ++ e) (fm_extensions f) -> k <> ByText ($"." ++ e)).
    { intros e He ->. apply Hk. right. right. left. exists e. split; [exact He|reflexivity]. }
    specialize (Hp Hx reg). destruct (put_extensions f (fm_extensions f) reg) as [reg' b]. cbn [fst] in Hp.
    destruct b; cbn [fst]; [|exact Hp]. rewrite look_up_put, key_eqb_neq by (intros ->; apply Hk; right; right; right; reflexivity).
    assert (Hn : look_up k (put (ByText (c :: name)) f reg') = look_up k reg).
    { rewrite look_up_put, key_eqb_neq by (intros ->; apply Hk; left; rewrite En; reflexivity). exact Hp. }
    destruct (fm_mimetype f) as [|m ms] eqn:Em; [exact Hn|].
    rewrite look_up_put, key_eqb_neq; [exact Hn|]. intros ->. apply Hk. right. left. split; [rewrite Em; discriminate|rewrite Em; reflexivity].
  - intros H. unfold register. rewrite H. reflexivity.
Qed.

(** @example
Example C65_registered_only_example :
  ~ keyed f65 (ByText $"json") /\ option_map fm_name (look_up (ByText $"json") (fst (register f65 (register_all [f65; Json env0] [])))) = Some $"json".
Proof.
  split; [|vm_compute; reflexivity].
  intros [H|[[H _]|[[e [_ H]]|H]]]; try discriminate H. apply H. reflexivity.
Qed.
@end *)

Lemma keyed_dec f k : {keyed f k} + {~ keyed f k}.
Proof.
  destruct (key_dec k (ByText (fm_name f))) as [H1|H1]; [left; left; exact H1|].
  destruct (key_dec k (ByClass (fm_class f))) as [H2|H2]; [left; right; right; right; exact H2|].
  assert (Hm : {fm_mimetype f <> [] /\ k = ByText (fm_mimetype f)} + {~ (fm_mimetype f <> [] /\ k = ByText (fm_mimetype f))}).
  { destruct (fm_mimetype f); [right; intros [H _]; congruence|]. destruct (key_dec k (ByText (n :: s))); [left; split; [discriminate|assumption]|right; tauto]. }
  destruct Hm as [H3|H3]; [left; right; left; exact H3|].
  destruct k as [s|c].
  - destruct s as [|c e].
    + right. intros [H|[H|[[e [_ H]]|H]]]; try contradiction. discriminate.
    + destruct (N.eq_dec c 46) as [->|Hc].
      * destruct (in_dec (list_eq_dec N.eq_dec) (46%N :: e) (fm_extensions f)) as [Hin|Hin].
        -- left. right. right. left. exists e. split; [exact Hin|reflexivity].
        -- right. intros [H|[H|[[e' [H0 H]]|H]]]; try contradiction. injection H as ->. contradiction.
      * right. intros [H|[H|[[e' [H0 H]]|H]]]; try contradiction. injection H as ->. congruence.
  - right. intros [H|[H|[[e' [H0 H]]|H]]]; try contradiction. discriminate.
Qed.

Lemma register_all_snoc fs f reg : register_all (fs ++ [f]) reg = fst (register f (register_all fs reg)).
Proof. unfold register_all. rewrite fold_left_app. reflexivity. Qed.

(** @prop C65 After any sequence of formats was created, a key finds the last of the formats it belongs
    to, and no other key finds anything. *)
Lemma formats_registered :
  forall fs k f,
    (forall g, In g fs -> registrable g) ->
    (look_up k (register_all fs []) = Some f <-> last_keyed k fs f).
Proof.
  intros fs. induction fs as [|g fs IH] using rev_ind; intros k f Hr.
  - split; [discriminate|]. intros [a [b [H _]]]. destruct a; discriminate.
  - rewrite register_all_snoc. assert (Hg : registrable g) by (apply Hr; apply in_or_app; right; left; reflexivity).
    assert (Hr' : forall g, In g fs -> registrable g) by (intros x Hx; apply Hr; apply in_or_app; left; exact Hx).
    destruct (keyed_dec g k) as [Hk|Hk].
    + rewrite (proj2 (format_registered g _ k Hg Hk)). split.
      * intros [= <-]. exists fs, []. split; [reflexivity|]. split; [exact Hk|]. intros ? [].
      * intros [a [b [Heq [Hf Hb]]]]. destruct b as [|x b] using rev_ind.
        -- apply app_inj_tail in Heq as [_ ->]. reflexivity.
        -- rewrite app_comm_cons, app_assoc in Heq. apply app_inj_tail in Heq as [_ ->].
           exfalso. apply (Hb x); [apply in_or_app; right; left; reflexivity|exact Hk].
    + rewrite (proj1 (format_registered_only g _ k) Hk), IH by exact Hr'. split.
      * intros [a [b [-> [Hf Hb]]]]. exists a, (b ++ [g]). split; [rewrite <- app_assoc; reflexivity|]. split; [exact Hf|].
        intros x Hx. apply in_app_or in Hx as [Hx|[->|[]]]; auto.
      * intros [a [b [Heq [Hf Hb]]]]. destruct b as [|x b] using rev_ind.
        -- apply app_inj_tail in Heq as [_ ->]. contradiction.
        -- rewrite app_comm_cons, app_assoc in Heq. apply app_inj_tail in Heq as [-> ->].
           exists a, b. split; [reflexivity|]. split; [exact Hf|]. intros y Hy. apply Hb. apply in_or_app. left. exact Hy.
Qed.

(** @example
Example C65_formats_example :
  let named c n e := {| fm_class := c; fm_name := n; fm_mimetype := []; fm_extensions := e;
                        fm_serialize := fun _ _ => Ok []; fm_unserialize := fun _ _ => Ok VNone |} in
  last_keyed (ByText $".a") [named 1%nat $"x" [$".a"]; named 2%nat $"y" [$".b"; $".a"]; named 3%nat $"z" [$".b"]] (named 2%nat $"y" [$".b"; $".a"]).
Proof.
  intros named. exists [named 1%nat $"x" [$".a"]], [named 3%nat $"z" [$".b"]]. split; [reflexivity|]. split.
  - right. right. left. exists $"a". split; [right; left; reflexivity|reflexivity].
  - intros g [<-|[]] [H|[[H _]|[[e [[H1|[]] H]]|H]]]; try discriminate H; [apply H; reflexivity|].
    rewrite <- H1 in H. discriminate.
Qed.
@end *)

Lemma builtin_registrable E wrap load g : In g (builtin E wrap load) -> registrable g.
Proof.
  unfold builtin. cbn [In]. intros H. repeat destruct H as [<-|H]; try contradiction; (split; [discriminate|]);
    cbn; intuition discriminate.
Qed.

Lemma builtin_distinct E wrap load g k : In g (builtin E wrap load) -> keyed g k -> look_up k (formats E wrap load) = Some g.
Proof.
  unfold builtin. cbn [In]. intros H Hk. repeat destruct H as [<-|H]; try contradiction.
  all: destruct Hk as [->|[[_ ->]|[[e [He ->]]| ->]]]; try reflexivity.
  all: cbn [In fm_extensions Csv Json StructuredText UrlEncoded Xml Yaml] in He; repeat destruct He as [He|He]; try contradiction.
  all: rewrite <- He; reflexivity.
Qed.

(** @prop C65 After importing the library each of its six formats is found by its name, its mimetype, its
    extensions and its class; and a key finds something only if it belongs to one of them. *)
Lemma builtin_formats :
  forall E wrap load k f,
    look_up k (formats E wrap load) = Some f <-> In f (builtin E wrap load) /\ keyed f k.
Proof.
  intros E wrap load k f. split.
  - intros H. apply (formats_registered (builtin E wrap load) k f (builtin_registrable E wrap load)) in H.
    destruct H as [a [b [H [Hk _]]]]. split; [rewrite H; apply in_or_app; right; left; reflexivity|exact Hk].
  - intros [H Hk]. exact (builtin_distinct E wrap load f k H Hk).
Qed.

(** @example
Definition wrap65 (s t : str) : list str := [t].
Definition load65 (s : str) : res val := Ok VNone.
Example C65_builtin_example :
  In (Yaml env0 wrap65 load65) (builtin env0 wrap65 load65) /\ keyed (Yaml env0 wrap65 load65) (ByText $".yml")
  /\ option_map fm_name (look_up (ByText $"application/json") (formats env0 wrap65 load65)) = Some $"json"
  /\ look_up (ByText $"YAML") (formats env0 wrap65 load65) = None.
Proof.
  split; [unfold builtin; cbn [In]; tauto|]. split; [|split; vm_compute; reflexivity].
  right. right. left. exists $"yml". split; [right; left; reflexivity|reflexivity].
Qed.
@end *)

(** ** Paths *)

Lemma last_split_app sep a b : ~ In sep b -> last (split_on sep (a ++ sep :: b)) [] = b.
Proof.
  intros Hb. induction a as [|c a IH]; cbn [app split_on].
  - rewrite N.eqb_refl, split_on_none by exact Hb. reflexivity.
  - destruct (N.eqb c sep).
    + destruct (split_on sep (a ++ sep :: b)) eqn:Es; [exfalso; revert Es; apply split_on_nonempty|]. exact IH.
    + destruct (split_on sep (a ++ sep :: b)) as [|h t] eqn:Es; [exfalso; revert Es; apply split_on_nonempty|].
      destruct t as [|h' t]; [|exact IH]. exfalso.
      assert (Hj := join_split sep (a ++ sep :: b)). rewrite Es in Hj. cbn in Hj.
      assert (Hp := split_on_pieces sep (a ++ sep :: b)). rewrite Es in Hp. inversion Hp as [|? ? H1 _]. subst h.
      apply H1. apply in_or_app. right. left. reflexivity.
Qed.

Lemma base_of directory rest : (directory = [] \/ exists d, directory = d ++ $"/") -> ~ In 47%N rest ->
  last (split_on 47 (directory ++ rest)) [] = rest.
Proof.
  intros [->|[d ->]] Hr.
  - cbn [app]. rewrite split_on_none by exact Hr. reflexivity.
  - rewrite <- app_assoc. change ($"/" ++ rest) with (47%N :: rest). apply last_split_app. exact Hr.
Qed.

Lemma lstrip_stem p stem rest : (exists c, In c stem /\ p c = false) -> exists c s, lstrip p (stem ++ rest) = (c :: s) ++ rest.
Proof.
  intros [c [Hin Hc]]. induction stem as [|x stem IH]; [destruct Hin|]. cbn [app lstrip].
  destruct (p x) eqn:Ex; [|exists x, stem; reflexivity]. apply IH. destruct Hin as [->|Hin]; [congruence|exact Hin].
Qed.

Lemma rev_split_last sep s b : ~ In sep b -> exists y l, rev (split_on sep (s ++ sep :: b)) = b :: y :: l.
Proof.
  intros Hb. assert (Hl := last_split_app sep s b Hb).
  destruct (split_on sep (s ++ sep :: b)) as [|x l] eqn:Es using rev_ind; [exfalso; revert Es; apply split_on_nonempty|].
  clear IHl. rewrite last_last in Hl. subst x. rewrite rev_unit. destruct l as [|y l] using rev_ind.
  - exfalso. assert (Hj := join_split sep (s ++ sep :: b)). rewrite Es in Hj. cbn in Hj. apply Hb. rewrite Hj. apply in_or_app. right. left. reflexivity.
  - rewrite rev_unit. eauto.
Qed.

Lemma splitext_with path extension : path_with path extension -> splitext path = $"." ++ extension.
Proof.
  intros [directory [stem [-> [Hd [Hs [Hc [He1 He2]]]]]]]. unfold splitext.
  rewrite base_of; [|exact Hd|].
  - destruct (lstrip_stem (N.eqb 46) stem ($"." ++ extension)) as [c [s Hl]].
    { destruct Hc as [c [H1 H2]]. exists c. split; [exact H1|]. apply N.eqb_neq. congruence. }
    rewrite Hl. change ($"." ++ extension) with (46%N :: extension).
    destruct (rev_split_last 46 (c :: s) extension He2) as [y [l ->]]. reflexivity.
  - rewrite !in_app_iff. intros [H|[[H|[]]|H]]; [exact (Hs H)|discriminate|exact (He1 H)].
Qed.

Lemma lstrip_all p s rest : (forall c, In c s -> p c = true) -> lstrip p (s ++ rest) = lstrip p rest.
Proof.
  induction s as [|c s IH]; intros H; [reflexivity|]. cbn [app lstrip]. rewrite (H c) by (left; reflexivity).
  apply IH. intros d Hd. apply H. right. exact Hd.
Qed.

Lemma lstrip_sub p s c : In c (lstrip p s) -> In c s.
Proof. induction s as [|d s IH]; cbn; [tauto|]. destruct (p d); cbn; tauto. Qed.

Lemma splitext_without path : path_without path -> splitext path = [].
Proof.
  intros [directory [points [name [-> [Hd [Hp [Hn1 Hn2]]]]]]]. unfold splitext.
  rewrite base_of; [|exact Hd|].
  - rewrite lstrip_all by (intros c Hc; rewrite (Hp c Hc); reflexivity).
    rewrite split_on_none; [reflexivity|]. intros H. apply lstrip_sub in H. contradiction.
  - rewrite in_app_iff. intros [H|H]; [apply Hp in H; discriminate|contradiction].
Qed.

(** @prop C65 The names, mimetypes and extensions under which the library has formats, all of them. *)
Lemma builtin_names :
  forall E wrap load s f,
    look_up (ByText s) (formats E wrap load) = Some f
    <-> In (s, f) [($"csv", Csv E); ($"application/csv", Csv E); ($".csv", Csv E);
                   ($"json", Json E); ($"application/json", Json E); ($".json", Json E);
                   ($"structuredtext", StructuredText E); ($"text/plain", StructuredText E);
                   ($"urlencoded", UrlEncoded); ($"application/x-www-form-urlencoded", UrlEncoded);
                   ($"xml", Xml E); ($"application/xml", Xml E); ($".xml", Xml E);
                   ($"yaml", Yaml E wrap load); ($"application/x-yaml", Yaml E wrap load);
                   ($".yaml", Yaml E wrap load); ($".yml", Yaml E wrap load)].
Proof.
  intros E wrap load s f. rewrite builtin_formats. unfold builtin, keyed. cbn [In]. split.
  - intros [H K].
    repeat (destruct H as [<-|H]; [cbn [fm_name fm_mimetype fm_extensions Csv Json StructuredText UrlEncoded Xml Yaml In] in K;
      destruct K as [K|[[_ K]|[[e [K1 K]]|K]]]; [injection K as ->|injection K as ->|repeat destruct K1 as [K1|K1]; try contradiction; rewrite <- K1 in K; injection K as ->|discriminate K]; tauto|]).
    destruct H.
  - intros H. repeat (destruct H as [H|H]; [injection H as <- <-; split; [tauto|];
      cbn [fm_name fm_mimetype fm_extensions Csv Json StructuredText UrlEncoded Xml Yaml In];
      first [left; reflexivity | right; left; split; [discriminate|reflexivity]
            | right; right; left; eexists; split; [left; reflexivity|reflexivity] | right; right; left; eexists; split; [right; left; reflexivity|reflexivity]]|]).
    destruct H.
Qed.

(** @example
Example C65_names_example :
  look_up (ByText $".yml") (formats env0 wrap65 load65) = Some (Yaml env0 wrap65 load65)
  /\ look_up (ByText $"yml") (formats env0 wrap65 load65) = None.
Proof. split; reflexivity. Qed.
@end *)

(** @prop C65 Without a schema CSV and XML refuse to write (ValueError, TypeError) and to read (TypeError);
    JSON, StructuredText and YAML do with and without it the same, and UrlEncoded cannot be used through
    the registry at all. *)
Lemma schema_needed :
  forall E wrap load v s f k,
    let reg := formats E wrap load in
    (keyed (Csv E) k -> format_serialize reg v k None = py ValueError /\ format_unserialize reg s k None = py TypeError)
    /\ (keyed (Xml E) k -> format_serialize reg v k None = py TypeError /\ format_unserialize reg s k None = py TypeError)
    /\ (keyed (Json E) k \/ keyed (StructuredText E) k \/ keyed (Yaml E wrap load) k ->
        format_serialize reg v k (Some f) = format_serialize reg v k None
        /\ format_unserialize reg s k (Some f) = format_unserialize reg s k None)
    /\ (keyed UrlEncoded k -> forall schema,
        format_serialize reg v k schema = py TypeError /\ format_unserialize reg s k schema = py TypeError).
Proof.
  intros E wrap load v s f k reg. unfold format_serialize, format_unserialize, reg.
  assert (B : forall g, In g (builtin E wrap load) -> keyed g k -> look_up k (formats E wrap load) = Some g).
  { intros g Hg Hk. apply builtin_formats. auto. }
  unfold builtin in B. cbn [In] in B.
  split; [|split; [|split]].
  - intros H. rewrite (B (Csv E)) by tauto. split; reflexivity.
  - intros H. rewrite (B (Xml E)) by tauto. split; reflexivity.
  - intros [H|[H|H]].
    + rewrite (B (Json E)) by tauto. split; reflexivity.
    + rewrite (B (StructuredText E)) by tauto. split; reflexivity.
    + rewrite (B (Yaml E wrap load)) by tauto. split; reflexivity.
  - intros H schema. rewrite (B UrlEncoded) by tauto. split; reflexivity.
Qed.

(** @example
Example C65_schema_example :
  keyed (Xml env0) (ByText $"xml")
  /\ format_serialize (formats env0 wrap65 load65) (VInt 1) (ByText $"xml") None = py TypeError
  /\ format_serialize (formats env0 wrap65 load65) (VInt 1) (ByText $"json") None = Ok $"1".
Proof. split; [left; reflexivity|split; vm_compute; reflexivity]. Qed.
@end *)

(** @prop C65 With no format given, [Format] and fields take that of the lower-cased extension of the
    path: reading and writing the path is as if that extension were given as the format. *)
Lemma format_of_extension :
  forall E reg w path extension schema quiet v,
    path_with path extension ->
    let format := Some (ByText (lower (e_ulower E) ($"." ++ extension))) in
    format_read E reg None w path None schema quiet = format_read E reg None w path format schema quiet
    /\ format_write E reg None w path v None schema = format_write E reg None w path v format schema.
Proof.
  intros E reg w path extension schema quiet v Hp format.
  assert (H : resolve E reg None None path = resolve E reg None format path).
  { unfold resolve. cbn [given]. rewrite (splitext_with path extension Hp).
    unfold format. change (lower (e_ulower E) ($"." ++ extension)) with (46%N :: lower (e_ulower E) extension). reflexivity. }
  unfold format_read, format_write. rewrite H. split; reflexivity.
Qed.

(** @example
Example C65_extension_example :
  path_with $"/tmp/.x.tar/data.v1.JSON" $"JSON" /\ lower (e_ulower env0) $".JSON" = $".json"
  /\ look_up (ByText $".json") (formats env0 wrap65 load65) = Some (Json env0).
Proof.
  split; [|split; reflexivity].
  exists $"/tmp/.x.tar/", $"data.v1". split; [reflexivity|]. split; [right; exists $"/tmp/.x.tar"; reflexivity|].
  split; [cbn; intuition discriminate|]. split; [exists 100%N; split; [left; reflexivity|discriminate]|].
  split; cbn; intuition discriminate.
Qed.
@end *)

Lemma no_empty_key fs : look_up (ByText []) (register_all fs []) = None.
Proof.
  induction fs as [|f fs IH] using rev_ind; [reflexivity|]. rewrite register_all_snoc.
  destruct (fm_name f) as [|c name] eqn:En.
  - rewrite (proj2 (format_registered_only f (register_all fs []) (ByText [])) En). exact IH.
  - rewrite (proj1 (format_registered_only f (register_all fs []) (ByText []))); [exact IH|].
    intros [H|[[H1 H]|[[e [_ H]]|H]]]; try discriminate H; injection H as H; congruence.
Qed.

(** @prop C65 A path without an extension has no format: ValueError, and no file is touched. *)
Lemma format_without_extension :
  forall E fs w path schema quiet v,
    path_without path ->
    let reg := register_all fs [] in
    (path <> [] -> w_node w path <> None -> format_read E reg None w path None schema quiet = py ValueError)
    /\ format_write E reg None w path v None schema = (py ValueError, w).
Proof.
  intros E fs w path schema quiet v Hp reg.
  assert (H : resolve E reg None None path = py ValueError).
  { unfold resolve. cbn [given]. rewrite (splitext_without path Hp). cbn [lower flat_map]. unfold reg. rewrite no_empty_key. reflexivity. }
  unfold format_read, format_write. rewrite H. split; [|reflexivity].
  intros H1 H2. destruct path; [congruence|]. destruct (w_node w (n :: path)); [reflexivity|congruence].
Qed.

(** @example
Example C65_without_example : path_without $"a.b/.json".
Proof.
  exists $"a.b/", $".", $"json". split; [reflexivity|]. split; [right; exists $"a.b"; reflexivity|].
  split; [intros c [<-|[]]; reflexivity|]. split; cbn; intuition discriminate.
Qed.
@end *)

(** @prop C65 A format that is not registered is refused with ValueError by read and write, before any
    file is touched, and with KeyError by serialize and unserialize. *)
Lemma format_unknown :
  forall E reg cls w path k schema quiet v s,
    k <> ByText [] -> look_up k reg = None ->
    (path <> [] -> w_node w path <> None -> format_read E reg cls w path (Some k) schema quiet = py ValueError)
    /\ format_write E reg cls w path v (Some k) schema = (py ValueError, w)
    /\ format_serialize reg v k schema = py KeyError
    /\ format_unserialize reg s k schema = py KeyError.
Proof.
  intros E reg cls w path k schema quiet v s Hk Hl.
  assert (H : resolve E reg cls (Some k) path = py ValueError).
  { unfold resolve. replace (given (Some k)) with (Some k) by (destruct k as [[|]|]; [congruence|reflexivity|reflexivity]). rewrite Hl. reflexivity. }
  unfold format_read, format_write, format_serialize, format_unserialize. rewrite H, Hl. repeat split.
  intros H1 H2. destruct path; [congruence|]. destruct (w_node w (n :: path)); [reflexivity|congruence].
Qed.

(** @example
Definition w65 : world := {| w_node := fun p => if str_eqb p $"a.json" then Some (File $"[1]") else None;
                             w_readable := fun _ => true; w_writable := fun _ => true |}.
Example C65_unknown_example :
  look_up (ByText $"JSON") (formats env0 wrap65 load65) = None
  /\ format_read env0 (formats env0 wrap65 load65) None w65 $"a.json" (Some (ByText $"JSON")) None false = py ValueError
  /\ format_read env0 (formats env0 wrap65 load65) None w65 $"a.json" None None false = Ok (VList [VInt 1]).
Proof. split; [reflexivity|]. split; vm_compute; reflexivity. Qed.
@end *)

(** @prop C65 A named format class reads and writes in its own format when none is given, whatever the
    extension and the registry; a given one takes precedence. *)
Lemma format_of_class :
  forall E reg f w path schema quiet v k,
    fm_name f <> [] ->
    (forall text, path <> [] -> w_readable w path = true -> w_node w path = Some (File text) ->
       format_read E reg (Some f) w path None schema quiet
       = format_read E [(ByClass (fm_class f), f)] None w path (Some (ByClass (fm_class f))) schema quiet)
    /\ format_write E reg (Some f) w path v None schema
       = format_write E [(ByClass (fm_class f), f)] None w path v (Some (ByClass (fm_class f))) schema
    /\ (k <> ByText [] ->
        format_read E reg (Some f) w path (Some k) schema quiet = format_read E reg None w path (Some k) schema quiet
        /\ format_write E reg (Some f) w path v (Some k) schema = format_write E reg None w path v (Some k) schema).
Proof.
  intros E reg f w path schema quiet v k Hn.
  assert (H : resolve E reg (Some f) None path = resolve E [(ByClass (fm_class f), f)] None (Some (ByClass (fm_class f))) path).
  { unfold resolve. cbn [given look_up key_eqb]. rewrite Nat.eqb_refl. destruct (fm_name f); [congruence|reflexivity]. }
  unfold format_read, format_write. rewrite H. split; [reflexivity|]. split; [reflexivity|].
  intros Hk. assert (H' : forall cls, resolve E reg cls (Some k) path = resolve E reg None (Some k) path).
  { intros cls. unfold resolve. replace (given (Some k)) with (Some k) by (destruct k as [[|]|]; [congruence|reflexivity|reflexivity]). reflexivity. }
  rewrite H'. split; reflexivity.
Qed.

(** @example
Example C65_class_example :
  format_read env0 (formats env0 wrap65 load65) (Some f65) w65 $"a.json" None None false = Ok VNone.
Proof. vm_compute. reflexivity. Qed.
@end *)

(** @prop C65 Not so when an extension is registered with a capital: a file with exactly that extension is
    refused, since the extension of the path is lower-cased before the lookup but not that of the format. *)
Lemma extension_case_refuted :
  exists E f path,
    registrable f /\ keyed f (ByText $".TXT") /\ path_with path $"TXT"
    /\ forall w v schema, format_write E (register_all [f] []) None w path v None schema = (py ValueError, w).
Proof.
  exists env0, {| fm_class := 0; fm_name := $"text"; fm_mimetype := []; fm_extensions := [$".TXT"];
                  fm_serialize := fun _ _ => Ok []; fm_unserialize := fun _ _ => Ok VNone |}, $"a.TXT".
  split; [|split; [|split]].
  - split; [discriminate|]. cbn. intuition discriminate.
  - right. right. left. exists $"TXT". split; [left; reflexivity|reflexivity].
  - exists [], $"a". split; [reflexivity|]. split; [left; reflexivity|]. split; [cbn; intuition discriminate|].
    split; [exists 97%N; split; [left; reflexivity|discriminate]|]. split; cbn; intuition discriminate.
  - intros w v schema. reflexivity.
Qed.

(** ** Writing and reading *)

Lemma universal_newlines s : newlines s (universal s).
Proof.
  assert (H : forall n s, (length s <= n)%nat -> newlines s (universal s)).
  { induction n as [|n IH]; intros [|c s'] Hl; cbn [length] in Hl; try apply nl_end; [lia|]. cbn [universal].
    destruct (N.eqb_spec c 13) as [->|Hc]; [|apply nl_char; [exact Hc|apply IH; lia]].
    destruct s' as [|d s'']; [apply nl_return; [apply nl_end|discriminate]|].
    destruct (N.eqb_spec d 10) as [->|Hd].
    - apply nl_both. apply IH. cbn [length] in Hl. lia.
    - apply nl_return; [apply IH; cbn [length] in *; lia|]. intros r Hr. congruence. }
  apply (H (length s)). lia.
Qed.

Lemma newlines_universal s t : newlines s t -> t = universal s.
Proof.
  induction 1 as [|c s t Hc _ IH|s t _ IH Hs|s t _ IH]; subst; cbn [universal].
  - reflexivity.
  - apply N.eqb_neq in Hc. rewrite Hc. reflexivity.
  - rewrite N.eqb_refl. destruct s as [|d s]; [reflexivity|]. destruct (N.eqb_spec d 10) as [->|]; [exfalso; eapply Hs; reflexivity|reflexivity].
  - reflexivity.
Qed.

Lemma universal_plain s : ~ In 13%N s -> universal s = s.
Proof.
  induction s as [|c s IH]; intros H; [reflexivity|]. cbn [universal].
  destruct (N.eqb_spec c 13) as [->|_]; [exfalso; apply H; left; reflexivity|].
  rewrite IH; [reflexivity|]. intros Hin. apply H. right. exact Hin.
Qed.

Lemma set_file_same w path t : w_node (set_file w path t) path = Some (File t).
Proof. cbn. rewrite str_eqb_refl. reflexivity. Qed.

Lemma set_file_other w path t : only_changed path w (set_file w path t).
Proof. intros p Hp. cbn. apply str_eqb_neq in Hp. rewrite Hp. reflexivity. Qed.

(** @prop C66 After a write that succeeded, reading the same path with the same format gives what the
    format makes of the text it wrote, line ends having become ["\n"]; no other file has changed. *)
Lemma write_then_read :
  forall E reg cls w w' path v format schema quiet,
    format_write E reg cls w path v format schema = (Ok tt, w') ->
    path <> [] -> w_readable w path = true ->
    exists f text text',
      fm_serialize f v schema = Ok text /\ newlines text text'
      /\ format_read E reg cls w' path format schema quiet = fm_unserialize f text' schema
      /\ only_changed path w w'.
Proof.
  intros E reg cls w w' path v format schema quiet Hw Hp Hr. unfold format_write in Hw.
  destruct (resolve E reg cls format path) as [f|x] eqn:Ef; [|discriminate].
  destruct (open_new w path) as [w0|x]; [|discriminate].
  destruct (fm_serialize f v schema) as [t|x] eqn:Et; [|discriminate].
  destruct (encodable t); [|discriminate]. apply pair_equal_spec in Hw as [_ <-].
  exists f, t, (universal t). split; [exact Et|]. split; [apply universal_newlines|]. split; [|apply set_file_other].
  unfold format_read. destruct path as [|c path]; [congruence|]. rewrite set_file_same, Ef.
  cbn [bind]. unfold read_file. rewrite set_file_same. cbn [w_readable set_file]. rewrite Hr. reflexivity.
Qed.

(** @example
Example C66_write_read_example :
  let reg := formats env0 wrap65 load65 in
  let v := VDict false [(VStr $"a", VList [VInt 1; VNone])] in
  let r := format_write env0 reg None w65 $"b.json" v None None in
  fst r = Ok tt /\ format_read env0 reg None (snd r) $"b.json" None None false = Ok v
  /\ format_read env0 reg None (snd r) $"a.json" None None false = Ok (VList [VInt 1]).
Proof. vm_compute. repeat split. Qed.
@end *)

(** @prop C66 If the text has no carriage return, that is the round trip of the format. *)
Lemma write_then_read_plain :
  forall E reg w w' path v k f text schema quiet,
    look_up k reg = Some f -> k <> ByText [] -> fm_serialize f v schema = Ok text -> ~ In 13%N text ->
    format_write E reg None w path v (Some k) schema = (Ok tt, w') ->
    path <> [] -> w_readable w path = true ->
    format_read E reg None w' path (Some k) schema quiet = fm_unserialize f text schema.
Proof.
  intros E reg w w' path v k f text schema quiet Hl Hk Ht Hc Hw Hp Hr. unfold format_write in Hw.
  assert (H : resolve E reg None (Some k) path = Ok f).
  { unfold resolve. replace (given (Some k)) with (Some k) by (destruct k as [[|]|]; [congruence|reflexivity|reflexivity]). rewrite Hl. reflexivity. }
  rewrite H in Hw. destruct (open_new w path) as [w0|x]; [|discriminate]. rewrite Ht in Hw.
  destruct (encodable text); [|discriminate]. apply pair_equal_spec in Hw as [_ <-].
  unfold format_read. destruct path as [|c path]; [congruence|]. rewrite set_file_same, H.
  cbn [bind]. unfold read_file. rewrite set_file_same. cbn [w_readable set_file]. rewrite Hr. cbn [bind]. rewrite universal_plain by exact Hc. reflexivity.
Qed.

(** @example
Example C66_plain_example :
  let reg := formats env0 wrap65 load65 in
  look_up (ByText $"text/plain") reg = Some (StructuredText env0)
  /\ (do t <- fm_serialize (StructuredText env0) (VList [VInt 1; VStr $"a"]) None; Ok (existsb (N.eqb 13) t)) = Ok false
  /\ fst (format_write env0 reg None w65 $"b" (VList [VInt 1; VStr $"a"]) (Some (ByText $"text/plain")) None) = Ok tt.
Proof. split; [reflexivity|]. split; vm_compute; reflexivity. Qed.
@end *)

(** @prop C66 The files are written in UTF-8, which has no surrogates: where the file may be opened and
    the value has a text, exactly the texts without code points from D800 to DFFF are written; the others
    are a UnicodeError and leave the file empty. *)
Lemma write_encodes :
  forall E reg w path v k f text schema,
    look_up k reg = Some f -> k <> ByText [] -> fm_serialize f v schema = Ok text ->
    w_writable w path = true -> w_node w path <> Some Folder ->
    let out := format_write E reg None w path v (Some k) schema in
    ((forall c, In c text -> ~ (0xD800 <= c <= 0xDFFF)%N) -> fst out = Ok tt /\ w_node (snd out) path = Some (File text))
    /\ (forall c, In c text -> (0xD800 <= c <= 0xDFFF)%N -> fst out = py UnicodeError /\ w_node (snd out) path = Some (File [])).
Proof.
  intros E reg w path v k f text schema Hl Hk Ht Hw Hf out.
  assert (H : resolve E reg None (Some k) path = Ok f).
  { unfold resolve. replace (given (Some k)) with (Some k) by (destruct k as [[|]|]; [congruence|reflexivity|reflexivity]). rewrite Hl. reflexivity. }
  assert (Ho : open_new w path = Ok (set_file w path [])).
  { unfold open_new. rewrite Hw. destruct (w_node w path) as [[| |]|]; try reflexivity. congruence. }
  assert (Hout : out = if encodable text then (Ok tt, set_file w path text) else (py UnicodeError, set_file w path [])).
  { unfold out, format_write. rewrite H, Ho, Ht. reflexivity. }
  clearbody out. split.
  - intros Hc. assert (He : encodable text = true).
    { apply forallb_forall. intros c Hin. specialize (Hc c Hin). lia. }
    rewrite Hout, He. split; [reflexivity|apply set_file_same].
  - intros c Hin Hc. assert (He : encodable text = false).
    { apply Bool.not_true_iff_false. intros He. unfold encodable in He. rewrite forallb_forall in He. specialize (He c Hin). lia. }
    rewrite Hout, He. split; [reflexivity|apply set_file_same].
Qed.

(** @example
Example C66_surrogates_example :
  let reg := formats env0 wrap65 load65 in
  let out c := format_write env0 reg None w65 $"b" (VStr [c]) (Some (ByText $"text/plain")) None in
  fst (out 55295%N) = Ok tt /\ fst (out 55296%N) = py UnicodeError /\ fst (out 57343%N) = py UnicodeError /\ fst (out 57344%N) = Ok tt
  /\ w_node (snd (out 55296%N)) $"b" = Some (File []).
Proof. vm_compute. repeat split. Qed.
@end *)

Lemma encodable_ascii t : (forall c, In c t -> (32 <= c <= 126)%N) -> encodable t = true.
Proof. intros H. unfold encodable. apply forallb_forall. intros c Hc. specialize (H c Hc). lia. Qed.

(** @prop C66 A file of JSON holds what was written: writing any value JSON can carry succeeds wherever
    the file may be opened, and reading gives the value back as its JSON round trip does. *)
Lemma json_file :
  forall E wrap load w path v x k schema schema' quiet,
    json E v x -> keyed (Json E) k ->
    path <> [] -> w_readable w path = true -> w_writable w path = true -> w_node w path <> Some Folder ->
    exists w',
      format_write E (formats E wrap load) None w path v (Some k) schema = (Ok tt, w')
      /\ format_read E (formats E wrap load) None w' path (Some k) schema' quiet = Ok x
      /\ only_changed path w w'.
Proof.
  intros E wrap load w path v x k schema schema' quiet Hj Hk Hp Hr Hw Hf.
  destruct (json_roundtrip E v x Hj) as [t [Ht [Hascii Hu]]].
  assert (Hl : look_up k (formats E wrap load) = Some (Json E)).
  { apply builtin_formats. split; [unfold builtin; cbn [In]; tauto|exact Hk]. }
  assert (Hn : given (Some k) = Some k).
  { destruct k as [[|]|]; try reflexivity. exfalso. destruct Hk as [H|[[_ H]|[[e [_ H]]|H]]]; discriminate H. }
  assert (H : resolve E (formats E wrap load) None (Some k) path = Ok (Json E)).
  { unfold resolve. rewrite Hn, Hl. reflexivity. }
  exists (set_file w path t). split; [|split; [|apply set_file_other]].
  - unfold format_write. rewrite H. unfold open_new. rewrite Hw. cbn [fm_serialize Json]. rewrite Ht, encodable_ascii by exact Hascii.
    destruct (w_node w path) as [[| |]|]; try reflexivity. congruence.
  - unfold format_read. destruct path as [|c path]; [congruence|]. rewrite set_file_same, H.
    cbn [bind]. unfold read_file. rewrite set_file_same. cbn [w_readable set_file]. rewrite Hr. cbn [bind fm_unserialize Json].
    rewrite universal_plain; [exact Hu|]. intros Hc. apply Hascii in Hc. lia.
Qed.

(** @example
Example C66_json_example :
  let v := VDict false [(VStr $"a", VTuple [VInt 1; VBool true])] in
  let x := VDict false [(VStr $"a", VList [VInt 1; VBool true])] in
  (do t <- json_serialize env0 v; json_unserialize env0 t) = Ok x
  /\ keyed (Json env0) (ByText $"application/json")
  /\ w_writable w65 $"c" = true /\ w_node w65 $"c" = None.
Proof. repeat split. right. left. split; [discriminate|reflexivity]. Qed.
@end *)

(** @prop C66 Reading a file that is not there (or the empty path) raises ValueError, or returns [False]
    if quiet; and a field then processes that [False]. *)
Lemma read_missing :
  forall E desc recon n reg cls w path format schema quiet f,
    path = [] \/ w_node w path = None ->
    format_read E reg cls w path format schema quiet = (if quiet then Ok (VBool false) else py ValueError)
    /\ field_read E desc recon n reg w f path format quiet
       = (if quiet then process_gen E desc recon n f false Inbound true [] (VBool false) else py ValueError).
Proof.
  intros E desc recon n reg cls w path format schema quiet f H.
  assert (Hr : forall cls schema, format_read E reg cls w path format schema quiet = if quiet then Ok (VBool false) else py ValueError).
  { intros cls' schema'. unfold format_read. destruct H as [->|H]; [reflexivity|]. destruct path; [reflexivity|]. rewrite H. reflexivity. }
  split; [apply Hr|]. unfold field_read. rewrite Hr. destruct quiet; reflexivity.
Qed.

(** @example
Example C66_missing_example :
  w_node w65 $"z.json" = None
  /\ field_read env0 nodesc norecon 3 (formats env0 wrap65 load65) w65 (Fld p0 KBoolean) $"z.json" None true = Ok (VBool false).
Proof. split; vm_compute; reflexivity. Qed.
@end *)

(** @prop C66 A file that cannot be opened or is not text raises, whatever the format. *)
Lemma read_unreadable :
  forall E reg cls w path format schema quiet,
    w_readable w path = false \/ w_node w path = Some Folder \/ w_node w path = Some Broken ->
    forall v, format_read E reg cls w path format schema quiet = Ok v -> quiet = true /\ v = VBool false /\ (path = [] \/ w_node w path = None).
Proof.
  intros E reg cls w path format schema quiet H v Hv. unfold format_read in Hv.
  destruct path as [|c path].
  - destruct quiet; [injection Hv as <-; auto|discriminate].
  - destruct (w_node w (c :: path)) as [nd|] eqn:En.
    + exfalso. destruct (resolve E reg cls format (c :: path)); [|discriminate]. cbn [bind] in Hv. unfold read_file in Hv. rewrite En in Hv.
      destruct H as [H|[H|H]]; [rewrite H in Hv; discriminate| |]; injection H as ->; destruct (w_readable w (c :: path)); discriminate.
    + destruct quiet; [injection Hv as <-; auto|discriminate].
Qed.

(** @example
Example C66_unreadable_example :
  let w := {| w_node := fun _ => Some Folder; w_readable := fun _ => true; w_writable := fun _ => true |} in
  format_read env0 (formats env0 wrap65 load65) None w $"x.json" None None true = py OSError.
Proof. vm_compute. reflexivity. Qed.
@end *)

(** ** CSV files *)

Lemma universal_app a c rest : c <> 10%N -> universal (a ++ c :: rest) = universal a ++ universal (c :: rest).
Proof.
  intros Hc. assert (H : forall n a, (length a <= n)%nat -> universal (a ++ c :: rest) = universal a ++ universal (c :: rest)).
  { clear a. induction n as [|n IH]; intros [|d a] Hl; cbn [length] in Hl; try reflexivity; [lia|].
    rewrite <- app_comm_cons. cbn [universal]. destruct (N.eqb_spec d 13) as [->|Hd].
    - destruct a as [|e a].
      + cbn [app]. destruct (N.eqb_spec c 10); [congruence|]. reflexivity.
      + rewrite <- app_comm_cons. destruct (N.eqb e 10).
        * cbn [app]. rewrite IH by (cbn [length] in Hl; lia). reflexivity.
        * rewrite app_comm_cons, IH by (cbn [length] in *; lia). reflexivity.
    - rewrite IH by lia. reflexivity. }
  apply (H (length a)). lia.
Qed.

Lemma universal_cons c s : c <> 13%N -> universal (c :: s) = c :: universal s.
Proof. intros H. cbn [universal]. apply N.eqb_neq in H. rewrite H. reflexivity. Qed.

Lemma universal_doubled s : universal (doubled s) = doubled (universal s).
Proof.
  assert (H : forall n s, (length s <= n)%nat -> universal (doubled s) = doubled (universal s)).
  { clear s. induction n as [|n IH]; intros [|c s] Hl; cbn [length] in Hl; try reflexivity; [lia|].
    cbn [doubled]. destruct (N.eqb_spec c 34) as [->|Hc].
    - rewrite !universal_cons by discriminate. cbn [doubled]. rewrite IH by lia. reflexivity.
    - destruct (N.eq_dec c 13) as [->|Hr].
      + cbn [universal]. rewrite N.eqb_refl. cbn [doubled]. destruct s as [|d s]; [reflexivity|].
        cbn [length] in Hl. destruct (N.eqb_spec d 10) as [->|Hd].
        * change (doubled (10%N :: s)) with (10%N :: doubled s). cbn [N.eqb Pos.eqb doubled]. rewrite IH by lia. reflexivity.
        * assert (Hdd : match doubled (d :: s) with x :: y => if (x =? 10)%N then universal y else universal (doubled (d :: s)) | [] => [] end
                        = universal (doubled (d :: s))).
          { cbn [doubled]. destruct (N.eqb_spec d 34) as [->|Hq]; [reflexivity|]. apply N.eqb_neq in Hd. rewrite Hd. reflexivity. }
          rewrite Hdd, IH by (cbn [length]; lia). reflexivity.
      + rewrite !universal_cons by exact Hr. cbn [doubled]. apply N.eqb_neq in Hc. rewrite Hc, IH by lia. reflexivity. }
  apply (H (length s)). lia.
Qed.

Lemma universal_cell s rest : universal (csv_cell s ++ rest) = csv_cell (universal s) ++ universal rest.
Proof.
  unfold csv_cell. rewrite <- !app_comm_cons, <- !app_assoc. rewrite universal_cons by discriminate.
  cbn [app]. rewrite universal_app by discriminate. rewrite universal_doubled, universal_cons by discriminate. reflexivity.
Qed.

Lemma universal_row cells rest : universal (csv_row cells ++ rest) = join $"," (map csv_cell (map universal cells)) ++ 10%N :: universal rest.
Proof.
  unfold csv_row. rewrite <- app_assoc. cbn [app].
  induction cells as [|c cells IH]; [reflexivity|]. destruct cells as [|d cells].
  - cbn [map join]. rewrite universal_cell. reflexivity.
  - cbn [map] in *. rewrite !join_cons by discriminate. rewrite <- !app_assoc. rewrite universal_cell.
    change ($"," ++ join $"," (csv_cell d :: map csv_cell cells) ++ 13%N :: 10%N :: rest) with (44%N :: join $"," (csv_cell d :: map csv_cell cells) ++ 13%N :: 10%N :: rest).
    rewrite universal_cons by discriminate. rewrite IH. rewrite (join_cons _ (csv_cell (universal c))) by discriminate. rewrite <- !app_assoc. reflexivity.
Qed.

Definition bad {A} : res A := py (OtherError 0).

Lemma quoted_bad s rest fs : (forall f, read_line rest {| r_state := QuoteInQuoted; r_field := f; r_fields := fs |} = bad) ->
  forall f, read_line (doubled s ++ 34%N :: rest) {| r_state := InQuoted; r_field := f; r_fields := fs |} = bad.
Proof.
  intros Hr. induction s as [|c s IH]; intros f; cbn [doubled app].
  - cbn. apply Hr.
  - destruct (N.eqb_spec c 34) as [->|Hc]; cbn [app].
    + cbn [read_line N.eqb Pos.eqb read_char r_state bind to_state r_field r_fields]. unfold add_char, to_state. cbn [r_field r_fields].
      destruct (field_limit <=? N.of_nat (length f))%N; [reflexivity|]. cbn [bind]. apply IH.
    + cbn [read_line]. destruct (c =? 0)%N; [reflexivity|]. cbn [read_char r_state]. apply N.eqb_neq in Hc. rewrite Hc.
      unfold add_char. cbn [r_field r_fields]. destruct (field_limit <=? N.of_nat (length f))%N; [reflexivity|]. cbn [bind]. apply IH.
Qed.

Lemma row_bad cells rest : cells <> [] -> forall st fs, st = StartRecord \/ st = StartField ->
  read_line (join $"," (map csv_cell cells) ++ 10%N :: 34%N :: rest) {| r_state := st; r_field := []; r_fields := fs |} = bad.
Proof.
  induction cells as [|c cells IH]; [congruence|]. intros _ st fs Hst.
  assert (Hgo : forall rest', (forall f fs', read_line rest' {| r_state := QuoteInQuoted; r_field := f; r_fields := fs' |} = bad) ->
    read_line (csv_cell c ++ rest') {| r_state := st; r_field := []; r_fields := fs |} = bad).
  { intros rest' Hr. unfold csv_cell. rewrite <- app_comm_cons, <- app_assoc. cbn [app].
    change (34%N :: doubled c ++ 34%N :: rest') with ([34%N] ++ doubled c ++ 34%N :: rest'). cbn [app read_line N.eqb].
    assert (H34 : read_char (Some 34%N) {| r_state := st; r_field := []; r_fields := fs |} = Ok {| r_state := InQuoted; r_field := []; r_fields := fs |}).
    { destruct Hst as [-> | ->]; reflexivity. }
    rewrite H34. cbn [bind]. apply quoted_bad. intros f. apply Hr. }
  destruct cells as [|d cells].
  - cbn [map join]. apply Hgo. intros f fs'. reflexivity.
  - cbn [map]. rewrite join_cons by discriminate. rewrite <- !app_assoc. apply Hgo. intros f fs'.
    change ($"," ++ join $"," (csv_cell d :: map csv_cell cells) ++ 10%N :: 34%N :: rest)
      with (44%N :: join $"," (map csv_cell (d :: cells)) ++ 10%N :: 34%N :: rest).
    cbn [read_line N.eqb Pos.eqb read_char r_state is_crlf orb bind]. unfold save. cbn [r_fields r_field]. apply IH; [discriminate|right; reflexivity].
Qed.

Lemma rstrip_app p a b : rstrip p b <> [] -> rstrip p (a ++ b) = a ++ rstrip p b.
Proof.
  intros H. induction a as [|c a IH]; [reflexivity|]. cbn [app rstrip]. rewrite IH.
  destruct (a ++ rstrip p b) eqn:Ea; [|reflexivity]. apply app_eq_nil in Ea as [_ Ea]. contradiction.
Qed.

Lemma split_no_cr s : ~ In 13%N s -> split_crlf s = [s].
Proof.
  intros H. apply split_one. intros [a [b Hab]]. apply H. rewrite Hab. apply in_or_app. right. left. reflexivity.
Qed.

Lemma universal_no_cr s : ~ In 13%N (universal s).
Proof.
  assert (H := universal_newlines s). induction H; cbn [In]; intuition congruence.
Qed.

Lemma strip_crlf_quoted s : exists s', strip is_crlf (34%N :: s) = 34%N :: s' /\ (forall c, In c s' -> In c s).
Proof.
  unfold strip. cbn [lstrip is_crlf N.eqb Pos.eqb orb]. cbn [rstrip]. exists (rstrip is_crlf s). split.
  - destruct (rstrip is_crlf s); reflexivity.
  - induction s as [|d s IH]; cbn [rstrip]; [tauto|]. intros c Hc. destruct (rstrip is_crlf s); [|destruct Hc as [->|Hc]; [left; reflexivity|right; auto]].
    destruct (is_crlf d); [destruct Hc|]. destruct Hc as [->|[]]. left. reflexivity.
Qed.

Lemma written_rows_shape E cells items rows : written_rows E cells items = Ok rows ->
  length rows = length items /\ forall row, In row rows -> length row = length cells.
Proof.
  revert rows. induction items as [|i items IH]; intros rows H; cbn [written_rows] in H.
  - apply ok_inj in H. subst. split; [reflexivity|intros ? []].
  - assert (Hcase : forall row, (do r <- written_rows E cells items; Ok (row :: r)) = Ok rows -> length row = length cells ->
       length rows = length (i :: items) /\ forall row, In row rows -> length row = length cells).
    { intros row Hr Hrow. destruct (written_rows E cells items) as [r|x]; [|discriminate]. cbn [bind] in Hr. apply ok_inj in Hr. subst rows.
      destruct (IH r eq_refl) as [H1 H2]. split; [cbn [length]; congruence|]. intros row' [<-|Hin]; auto. }
    destruct i; first [eapply Hcase; [exact H|apply map_length] | destruct cells; [eapply Hcase; [exact H|reflexivity]|discriminate]].
Qed.

(** @prop C66 Not so for CSV: its lines end with ["\r\n"], the file is read with ["\n"] instead, and
    [Csv.unserialize] splits at ["\r\n"] only.  Every table with a column and a row that was written to a
    file cannot be read back: [csv.Error]. *)
Lemma csv_files_unreadable :
  forall E v text text' schema,
    csv_serialize E VNone [] v schema = Ok text -> newlines text text' ->
    (exists header first rest, text = csv_row header ++ csv_row first ++ rest /\ header <> [] /\ first <> []) ->
    csv_unserialize E text' schema = py (OtherError 0).
Proof.
  intros E v text text' schema Hser Hnl [header [first [rest [-> [Hh Hf]]]]]. apply newlines_universal in Hnl. subst text'.
  assert (Hd : exists d, row_structure E TypeError schema = Ok d).
  { unfold csv_serialize in Hser. cbn [follow bind fst snd] in Hser.
    assert (Hd : exists d, row_structure E ValueError schema = Ok d).
    { destruct v; try discriminate; destruct (row_structure E ValueError schema) as [d|]; try discriminate; eauto. }
    destruct Hd as [d Hd]. exists d. unfold row_structure in *. destruct (kind_at E schema) as [[]|]; try discriminate.
    match goal with |- context [kind_at E ?i] => destruct (kind_at E i) as [[]|] end; try discriminate. exact Hd. }
  destruct Hd as [d Hd]. unfold csv_unserialize. rewrite Hd. cbn [bind].
  assert (Hu : exists tail, universal (csv_row header ++ csv_row first ++ rest) = join $"," (map csv_cell (map universal header)) ++ 10%N :: 34%N :: tail).
  { rewrite universal_row. exists (tl (universal (csv_row first ++ rest))). f_equal. f_equal. rewrite universal_row.
    destruct (row_starts (map universal first)) as [x Hx]; [destruct first; [congruence|discriminate]|].
    change [44%N] with $"," in Hx. rewrite Hx. reflexivity. }
  destruct Hu as [tail Hu].
  assert (Hs : exists tail', strip is_crlf (universal (csv_row header ++ csv_row first ++ rest))
                             = join $"," (map csv_cell (map universal header)) ++ 10%N :: 34%N :: tail' /\ (forall c, In c tail' -> In c tail)).
  { rewrite Hu. destruct (row_starts (map universal header)) as [x Hx]; [destruct header; [congruence|discriminate]|].
    change [44%N] with $"," in Hx. unfold strip.
    replace (lstrip is_crlf (join $"," (map csv_cell (map universal header)) ++ 10%N :: 34%N :: tail))
      with (join $"," (map csv_cell (map universal header)) ++ 10%N :: 34%N :: tail) by (rewrite Hx; reflexivity).
    assert (Ht : rstrip is_crlf (34%N :: tail) = 34%N :: rstrip is_crlf tail).
    { cbn [rstrip is_crlf N.eqb Pos.eqb orb]. destruct (rstrip is_crlf tail); reflexivity. }
    exists (rstrip is_crlf tail). split.
    - rewrite rstrip_app.
      + f_equal. cbn [rstrip] in Ht |- *. rewrite Ht. reflexivity.
      + change (10%N :: 34%N :: tail) with ([10%N] ++ 34%N :: tail). rewrite rstrip_app; rewrite Ht; discriminate.
    - clear. induction tail as [|c s IH]; cbn [rstrip]; [tauto|]. intros e He. destruct (rstrip is_crlf s); [|destruct He as [->|He]; [left; reflexivity|right; auto]].
      destruct (is_crlf c); [destruct He|]. destruct He as [->|[]]. left. reflexivity. }
  destruct Hs as [tail' [Hs Hin]].
  assert (Hcr : ~ In 13%N (strip is_crlf (universal (csv_row header ++ csv_row first ++ rest)))).
  { assert (Hn := universal_no_cr (csv_row header ++ csv_row first ++ rest)). rewrite Hs. rewrite Hu in Hn. rewrite in_app_iff in *. cbn [In] in *.
    intros [H|[H|[H|H]]]; try discriminate; apply Hn; [left; exact H|right; right; right; auto]. }
  rewrite split_no_cr by exact Hcr. rewrite Hs. unfold fresh. cbn [read_rows].
  rewrite row_bad; [reflexivity|destruct header; [congruence|discriminate]|left; reflexivity].
Qed.

(** @example
Definition s66 : field := Fld p0 (KSequence (Fld p0 (KStructure (SPlain [($"age", Fld p0 (KInteger None None)); ($"name", Fld p0 (KText None None None true))]) false None)) None None false).
Definition v66 : val := VList [VDict false [(VStr $"age", VInt 3); (VStr $"name", VStr $"x")]].
Example C66_csv_example :
  csv_serialize env0 VNone [] v66 s66 = Ok (csv_row [$"age"; $"name"] ++ csv_row [$"3"; $"x"] ++ []).
Proof. vm_compute. reflexivity. Qed.
@end *)

(** @prop C66 The property fails for CSV: here is a table the format gives back when the text is passed
    directly, which is written without an error and cannot be read. *)
Lemma csv_file_refuted :
  exists E wrap load w path v schema,
    let reg := formats E wrap load in
    (do t <- csv_serialize E VNone [] v schema; csv_unserialize E t schema) = Ok v
    /\ fst (format_write E reg None w path v None (Some schema)) = Ok tt
    /\ format_read E reg None (snd (format_write E reg None w path v None (Some schema))) path None (Some schema) false
       = py (OtherError 0).
Proof.
  exists env0, (fun _ t => [t]), (fun _ => Ok VNone),
    {| w_node := fun _ => None; w_readable := fun _ => true; w_writable := fun _ => true |}, $"t.csv",
    (VList [VDict false [(VStr $"age", VInt 3); (VStr $"name", VStr $"x")]]),
    (Fld p0 (KSequence (Fld p0 (KStructure (SPlain [($"age", Fld p0 (KInteger None None)); ($"name", Fld p0 (KText None None None true))]) false None)) None None false)).
  cbv zeta. split; [vm_compute; reflexivity|]. split; vm_compute; reflexivity.
Qed.

(** ** Failed writes *)

(** @prop C67 The value is processed before the file is opened: whatever error the field raises, no file
    has changed. *)
Lemma write_validates_first :
  forall E desc recon n reg w f path v format x,
    process_gen E desc recon n f false Outbound true [] v = Raise x ->
    field_write E desc recon n reg w f path v format = (Raise x, w).
Proof. intros E desc recon n reg w f path v format x H. unfold field_write. rewrite H. reflexivity. Qed.

(** @example
Definition f67 : field := Fld p0 (KInteger (Some 5%Z) None).
Example C67_validates_example :
  let r := field_write env0 nodesc norecon 3 (formats env0 wrap65 load65) w65 f67 $"a.json" (VInt 4) None in
  (match fst r with Raise (XErr _) => true | _ => false end) = true /\ w_node (snd r) $"a.json" = Some (File $"[1]").
Proof. vm_compute. split; reflexivity. Qed.
@end *)

(** @prop C67 Nor has any file changed when the format is unknown or the path cannot be opened. *)
Lemma write_refused :
  forall E desc recon n reg w f path v format,
    (forall k g, look_up k reg = Some g -> w_writable w path = false \/ w_node w path = Some Folder) ->
    exists x, field_write E desc recon n reg w f path v format = (Raise x, w).
Proof.
  intros E desc recon n reg w f path v format H. unfold field_write.
  destruct (process_gen E desc recon n f false Outbound true [] v) as [v'|x]; [|eauto]. unfold format_write.
  assert (Hr : (exists x, resolve E reg None format path = Raise x) \/ exists k g, look_up k reg = Some g /\ resolve E reg None format path = Ok g).
  { unfold resolve. destruct (given format) as [k|].
    - destruct (look_up k reg) as [g|] eqn:Eg; [right; exists k, g; split; [exact Eg|reflexivity]|left; eexists; reflexivity].
    - match goal with |- context [look_up ?k reg] => destruct (look_up k reg) as [g|] eqn:Eg; [right; exists k, g; split; [exact Eg|reflexivity]|left; eexists; reflexivity] end. }
  destruct Hr as [[x ->]|[k [g [Hg ->]]]]; [eauto|]. specialize (H k g Hg). unfold open_new.
  destruct H as [H|H]; rewrite H; [destruct (w_node w path) as [[]|]|]; eexists; reflexivity.
Qed.

(** @example
Example C67_refused_example :
  let w := {| w_node := fun _ => Some Folder; w_readable := fun _ => true; w_writable := fun _ => true |} in
  field_write env0 nodesc norecon 3 (formats env0 wrap65 load65) w (Fld p0 KBoolean) $"x.json" (VBool true) None = (py OSError, w).
Proof. vm_compute. reflexivity. Qed.
@end *)

(** @prop C67 A format that fails after the file was opened leaves it empty, whatever it held; other files
    are as before. *)
Lemma write_truncates :
  forall E desc recon n reg w f path v v' k g x,
    process_gen E desc recon n f false Outbound true [] v = Ok v' ->
    look_up k reg = Some g -> k <> ByText [] -> fm_serialize g v' (Some f) = Raise x ->
    w_writable w path = true -> w_node w path <> Some Folder ->
    exists w', field_write E desc recon n reg w f path v (Some k) = (Raise x, w')
               /\ w_node w' path = Some (File []) /\ only_changed path w w'.
Proof.
  intros E desc recon n reg w f path v v' k g x Hp Hl Hk Hs Hw Hf. exists (set_file w path []).
  split; [|split; [apply set_file_same|apply set_file_other]].
  unfold field_write. rewrite Hp. unfold format_write, resolve.
  replace (given (Some k)) with (Some k) by (destruct k as [[|]|]; [congruence|reflexivity|reflexivity]). rewrite Hl.
  unfold open_new. rewrite Hw, Hs. destruct (w_node w path) as [[]|]; try reflexivity. congruence.
Qed.

(** @example
Example C67_truncates_example : (* the csv format writes sequences only *)
  let f := Fld p0 KBoolean in
  process_gen env0 nodesc norecon 3 f false Outbound true [] (VBool true) = Ok (VBool true)
  /\ fm_serialize (Csv env0) (VBool true) (Some f) = py ValueError
  /\ w_node w65 $"a.json" = Some (File $"[1]")
  /\ (let r := field_write env0 nodesc norecon 3 (formats env0 wrap65 load65) w65 f $"a.json" (VBool true) (Some (ByText $"csv")) in
      fst r = py ValueError /\ w_node (snd r) $"a.json" = Some (File [])).
Proof. repeat split; vm_compute; reflexivity. Qed.
@end *)

(** @prop C67 So a write ends in one of three ways: it succeeded and the file holds exactly the text of the
    format; it failed and all files are as before; or it failed and the file is empty.  Other files never
    change. *)
Lemma write_outcomes :
  forall E desc recon n reg w f path v format r w',
    field_write E desc recon n reg w f path v format = (r, w') ->
    only_changed path w w'
    /\ ((r = Ok tt /\ exists v' g text, process_gen E desc recon n f false Outbound true [] v = Ok v'
                                        /\ fm_serialize g v' (Some f) = Ok text /\ w_node w' path = Some (File text))
        \/ (exists x, r = Raise x) /\ same_files w w'
        \/ (exists x v', r = Raise x /\ process_gen E desc recon n f false Outbound true [] v = Ok v') /\ w_node w' path = Some (File [])).
Proof.
  intros E desc recon n reg w f path v format r w' H. unfold field_write in H.
  destruct (process_gen E desc recon n f false Outbound true [] v) as [v'|x] eqn:Ep.
  2: { apply pair_equal_spec in H as [<- <-]. split; [intros p _; reflexivity|]. right. left. split; [eauto|intros p; reflexivity]. }
  unfold format_write in H. destruct (resolve E reg None format path) as [g|x].
  2: { apply pair_equal_spec in H as [<- <-]. split; [intros p _; reflexivity|]. right. left. split; [eauto|intros p; reflexivity]. }
  destruct (open_new w path) as [w0|x] eqn:Eo.
  2: { apply pair_equal_spec in H as [<- <-]. split; [intros p _; reflexivity|]. right. left. split; [eauto|intros p; reflexivity]. }
  assert (Hw0 : w0 = set_file w path []).
  { unfold open_new in Eo. destruct (w_node w path) as [[]|]; try discriminate; destruct (w_writable w path); try discriminate; apply ok_inj in Eo; auto. }
  subst w0. destruct (fm_serialize g v' (Some f)) as [t|x] eqn:Es.
  - destruct (encodable t); apply pair_equal_spec in H as [<- <-]; (split; [apply set_file_other|]).
    + left. split; [reflexivity|]. exists v', g, t. split; [reflexivity|]. split; [exact Es|apply set_file_same].
    + right. right. split; [eexists; eexists; split; reflexivity|apply set_file_same].
  - apply pair_equal_spec in H as [<- <-]. split; [apply set_file_other|]. right. right. split; [eexists; eexists; split; reflexivity|apply set_file_same].
Qed.

(** @example
Example C67_outcomes_example :
  let r := field_write env0 nodesc norecon 3 (formats env0 wrap65 load65) w65 f67 $"a.json" (VInt 7) None in
  fst r = Ok tt /\ w_node (snd r) $"a.json" = Some (File $"7").
Proof. vm_compute. repeat split. Qed.
@end *)

(** ** Url encoded fields *)

(** @prop C61 Through a field the format is of no use: serializing raises the error of the field or
    TypeError, unserializing always raises TypeError. *)
Lemma urlencoded_fields :
  forall E wrap load desc recon n f v s k,
    keyed UrlEncoded k ->
    let reg := formats E wrap load in
    (forall v', process_gen E desc recon n f false Outbound true [] v = Ok v' ->
                field_serialize E desc recon n reg f v (Some k) = py TypeError)
    /\ (forall x, process_gen E desc recon n f false Outbound true [] v = Raise x ->
                  field_serialize E desc recon n reg f v (Some k) = Raise x)
    /\ field_unserialize E desc recon n reg f s k = py TypeError.
Proof.
  intros E wrap load desc recon n f v s k Hk reg.
  assert (Hl : look_up k reg = Some UrlEncoded).
  { apply builtin_formats. split; [unfold builtin; cbn [In]; tauto|exact Hk]. }
  assert (Hn : given (Some k) = Some k).
  { destruct k as [[|]|]; try reflexivity. exfalso. destruct Hk as [H|[[_ H]|[[e [_ H]]|H]]]; discriminate H. }
  unfold field_serialize, field_unserialize, format_serialize, format_unserialize. rewrite Hn.
  split; [|split].
  - intros v' ->. cbn [bind]. rewrite Hl. reflexivity.
  - intros x ->. reflexivity.
  - rewrite Hl. reflexivity.
Qed.

(** @example
Example C61_fields_example :
  keyed UrlEncoded (ByText $"urlencoded")
  /\ field_serialize env0 nodesc norecon 3 (formats env0 wrap65 load65) (Fld p0 KBoolean) (VBool true) (Some (ByText $"urlencoded")) = py TypeError.
Proof. split; [left; reflexivity|vm_compute; reflexivity]. Qed.
@end *)

(** ** Fields through the built-in formats *)

(** @prop C65 A field hands the outcome of its processing to the format named by the argument,
    together with itself as the schema, and processes what that format reads. *)
Lemma field_formats :
  forall E wrap load desc recon n f fm k v s,
    In fm (builtin E wrap load) -> keyed fm k -> k <> ByText [] ->
    let reg := formats E wrap load in
    (forall w t, process_gen E desc recon n f false Outbound true [] v = Ok w ->
       (field_serialize E desc recon n reg f v (Some k) = Ok (VStr t) <-> fm_serialize fm w (Some f) = Ok t)
       /\ field_serialize E desc recon n reg f v None = Ok w
       /\ forall x, field_serialize E desc recon n reg f v (Some k) = Raise x <-> fm_serialize fm w (Some f) = Raise x)
    /\ (forall w, fm_unserialize fm s (Some f) = Ok w ->
          field_unserialize E desc recon n reg f s k = process_gen E desc recon n f false Inbound true [] w)
    /\ (forall x, fm_unserialize fm s (Some f) = Raise x -> field_unserialize E desc recon n reg f s k = Raise x).
Proof.
  intros E wrap load desc recon n f fm k v s Hi Hk Hne reg.
  assert (Hl : look_up k reg = Some fm) by (apply builtin_formats; split; assumption).
  assert (Hn : given (Some k) = Some k) by (destruct k as [[|]|]; try reflexivity; contradiction).
  unfold field_serialize, field_unserialize, format_serialize, format_unserialize. rewrite Hn, Hl.
  split; [|split].
  - intros w t ->. cbn [bind]. split; [|split; [reflexivity|]].
    + destruct (fm_serialize fm w (Some f)) as [u|e]; cbn [bind]; split; intros H; try discriminate H; [injection H as ->|apply ok_inj in H; subst u]; reflexivity.
    + intros x. destruct (fm_serialize fm w (Some f)) as [u|e]; cbn [bind]; split; intros H; try discriminate H; injection H as ->; reflexivity.
  - intros w ->. reflexivity.
  - intros x ->. reflexivity.
Qed.

(** @example
Example C65_csv_field_example :
  let f := Fld p0 (KSequence (Fld p0 (KStructure (SPlain [($"a", Fld (p_named $"a") KBoolean)]) true None)) None None false) in
  let v := VList [VDict false [(VStr $"a", VBool true)]] in
  keyed (Csv env0) (ByText $"csv")
  /\ field_serialize env0 nodesc norecon 3 (formats env0 wrap65 load65) f v (Some (ByText $"csv"))
     = (do t <- fm_serialize (Csv env0) v (Some f); Ok (VStr t))
  /\ exists t, fm_serialize (Csv env0) v (Some f) = Ok t /\ fm_serialize (Csv env0) v None = py ValueError.
Proof. split; [left; reflexivity|]. split; [vm_compute; reflexivity|]. eexists. split; vm_compute; reflexivity. Qed.
@end *)
