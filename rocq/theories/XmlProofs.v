(** * Proofs about the XML format (C64). *)
From Coq Require Import Permutation.
From Verif Require Import PyBaseFacts NumFacts NumProofs ProcessFacts Induct StProofs UrlProofs CsvProofs.
From Verif Require Import Demo XmlSpec.
(* @imports XmlSpec Demo *)
Open Scope N_scope.
Open Scope list_scope.

(** ** Values and elements *)

(** What a parser makes of an element: an empty text is none ([keep] leaves the element alone). *)
Fixpoint settle (keep : bool) (e : elem) : elem :=
  let 'Elem tag attrs text children := e in
  Elem tag attrs (match text with Some [] => if keep then text else None | _ => text end) (map (settle keep) children).
Definition faded (keep : bool) (v : val) : val := if keep then v else null_texts v.

Section ElemInd.
Variable P : elem -> Prop.
Hypothesis H : forall tag attrs text children, (forall c, In c children -> P c) -> P (Elem tag attrs text children).
Fixpoint elem_ind' (e : elem) : P e.
Proof.
  destruct e as [tag attrs text children]. apply H. induction children as [|x l IH]; intros c Hc; [destruct Hc|].
  destruct Hc as [<-|Hc]; [apply elem_ind' | apply IH, Hc].
Qed.
End ElemInd.

Lemma settle_true e : settle true e = e.
Proof.
  induction e as [tag attrs text children IH] using elem_ind'. cbn [settle].
  f_equal; [destruct text as [[|c s]|]; reflexivity|]. rewrite <- (map_id children) at 2. apply map_ext_in, IH.
Qed.

Lemma settle_tag keep e : tag_of (settle keep e) = tag_of e.
Proof. destruct e. reflexivity. Qed.

(** Elements the format writes. *)
Inductive written (T X : str -> Prop) : elem -> Prop :=
| written_null : forall tag, T tag -> written T X (Elem tag [($"null", $"true")] None [])
| written_text : forall tag s, T tag -> X s -> written T X (Elem tag [] (Some s) [])
| written_node : forall tag l, T tag -> (forall e, In e l -> written T X e) -> written T X (Elem tag [] None l).

Lemma in_turn_map {A B} (f : A -> res B) (g : A -> B) l :
  (forall x, In x l -> f x = Ok (g x)) -> in_turn (map f l) = Ok (map g l).
Proof.
  induction l as [|x l IH]; intros Hf; [reflexivity|]. cbn [map in_turn]. rewrite (Hf x (or_introl eq_refl)). cbn [bind].
  rewrite IH; [reflexivity|]. intros y Hy. apply Hf. right. exact Hy.
Qed.

Lemma fold_aset (pairs : list (str * val)) : forall acc, NoDup (map fst (acc ++ pairs)) ->
  fold_left (fun d kv => aset (fst kv) (snd kv) d) pairs acc = acc ++ pairs.
Proof.
  induction pairs as [|[k v] pairs IH]; intros acc Hn; cbn [fold_left fst snd]; [rewrite app_nil_r; reflexivity|].
  assert (Hk : ~ In k (map fst acc)).
  { rewrite map_app in Hn. cbn [map fst] in Hn. apply NoDup_remove_2 in Hn. intros Hi. apply Hn, in_or_app. left. exact Hi. }
  rewrite (aset_notin _ _ _ Hk), IH; rewrite <- app_assoc; [reflexivity|exact Hn].
Qed.

Lemma dict_of_pairs pairs : NoDup (map fst pairs) ->
  dict_of pairs = VDict false (map (fun kv => (VStr (fst kv), snd kv)) pairs).
Proof. intros Hn. unfold dict_of. rewrite (fold_aset pairs []); [reflexivity|exact Hn]. Qed.

Lemma choose_list {A B} (P : A -> B -> Prop) l : (forall x, In x l -> exists y, P x y) -> exists m, Forall2 P l m.
Proof.
  induction l as [|x l IH]; intros H; [exists []; constructor|].
  destruct (H x (or_introl eq_refl)) as [y Hy]. destruct IH as [m Hm]; [intros z Hz; apply H; right; exact Hz|].
  exists (y :: m). constructor; assumption.
Qed.

Lemma Forall2_in {A B} (P : A -> B -> Prop) l m : Forall2 P l m -> forall y, In y m -> exists x, In x l /\ P x y.
Proof.
  induction 1 as [|x y l m Hx _ IH]; intros z []; [subst; exists x; split; [left; reflexivity|assumption]|].
  destruct (IH z H) as [x' [H1 H2]]. exists x'. split; [right; exact H1|exact H2].
Qed.

Lemma field_at_kind E f p k : field_at E f p k -> kind_at E f = Some k.
Proof. intros [->|[n [-> H]]]; [reflexivity|]. cbn [kind_at]. rewrite H. reflexivity. Qed.

Lemma field_at_tag E f p k o t : field_at E f p k -> titled p o t -> slot_tag E o f = Ok t.
Proof.
  intros Hf Ht. assert (Hp : tag_or o (p_name p) = t).
  { destruct Ht as [[-> Hn]|[[->| ->] ->]]; [|reflexivity|reflexivity]. destruct t; [congruence|reflexivity]. }
  destruct Hf as [->|[n [-> H]]]; cbn [slot_tag]; [|rewrite H]; rewrite Hp; reflexivity.
Qed.

(** One value and its element. *)
Definition carries (E : env) (T X : str -> Prop) (k : kind) (tag : str) (v : val) (e : elem) : Prop :=
  xml_element E v tag (Some k) = Ok e /\ tag_of e = tag /\ written T X e
  /\ forall keep, exists w, xml_value E (settle keep e) (Some k) = Ok w /\ reordered (faded keep v) w.

Lemma faded_dict keep o l : faded keep (VDict o l) = VDict o (map (fun kv => (fst kv, faded keep (snd kv))) l).
Proof.
  destruct keep; [|reflexivity]. cbn [faded]. f_equal. rewrite <- (map_id l) at 1. apply map_ext. intros [a b]. reflexivity.
Qed.
Lemma faded_list keep l : faded keep (VList l) = VList (map (faded keep) l).
Proof. destruct keep; [|reflexivity]. cbn [faded]. f_equal. symmetry. apply map_id. Qed.
Lemma faded_tuple keep l : faded keep (VTuple l) = VTuple (map (faded keep) l).
Proof. destruct keep; [|reflexivity]. cbn [faded]. f_equal. symmetry. apply map_id. Qed.

(** The entries of a dict: sorted on the way out, a dict again on the way in. *)
Lemma entries E T X (slot : str -> option kind) (l : list (val * val)) (get_slot : str -> res (option kind)) o :
  (forall key v, In (key, v) l -> exists s k e, key = VStr s /\ get_slot s = Ok (Some k) /\ carries E T X k s v e) ->
  NoDup (map fst l) ->
  exists children,
    (do items <- sorted_items (map (fun kv => (fst kv, match fst kv with
                                        | VStr key => do slot' <- get_slot key; xml_element E (snd kv) key slot'
                                        | _ => py KeyError
                                        end)) l);
     in_turn (map snd items)) = Ok children
    /\ (forall e, In e children -> written T X e)
    /\ forall keep, exists pairs,
         in_turn (map (fun c => do slot' <- get_slot (tag_of c); do v <- xml_value E c slot'; Ok (tag_of c, v))
                      (map (settle keep) children)) = Ok pairs
         /\ reordered (faded keep (VDict o l)) (dict_of pairs).
Proof.
  intros Hl Hn.
  assert (Hq : exists q : list (str * (val * elem)),
    l = map (fun x => (VStr (fst x), fst (snd x))) q
    /\ forall x, In x q -> exists k, get_slot (fst x) = Ok (Some k) /\ carries E T X k (fst x) (fst (snd x)) (snd (snd x))).
  { clear Hn. induction l as [|[key v] l IH]; [exists []; split; [reflexivity|intros x []]|].
    destruct IH as [q [-> Hq]]; [intros k' v' Hin; apply Hl; right; exact Hin|].
    destruct (Hl key v (or_introl eq_refl)) as [s [k [e [-> [H1 H2]]]]]. exists ((s, (v, e)) :: q). split; [reflexivity|].
    intros x [<-|Hx]; [exists k; split; assumption|exact (Hq x Hx)]. }
  destruct Hq as [q [-> Hq]].
  set (f := fun x : str * (val * elem) => (fst x, Ok (snd (snd x)) : res elem)).
  assert (Hp' := Permutation_sym (sort_items_perm (map f q))). destruct (Permutation_map_inv f _ Hp') as [q' [Hs Hperm]].
  assert (Hq' : forall x, In x q' -> In x q) by (intros x; apply Permutation_in, Permutation_sym, Hperm).
  exists (map (fun x => snd (snd x)) q'). split; [|split].
  - assert (Hm : map (fun kv : val * val => (fst kv, match fst kv with
                                        | VStr key => do slot' <- get_slot key; xml_element E (snd kv) key slot'
                                        | _ => py KeyError
                                        end)) (map (fun x => (VStr (fst x), fst (snd x))) q)
                 = map (fun kv => (VStr (fst kv), snd kv)) (map f q)).
    { rewrite !map_map. apply map_ext_in. intros [s [v e]] Hx. cbn [fst snd f]. destruct (Hq _ Hx) as [k [H1 [H2 _]]]. cbn [fst snd] in H1, H2.
      rewrite H1. cbn [bind]. rewrite H2. reflexivity. }
    rewrite Hm. unfold sorted_items. rewrite keyed_strs, Hs. cbn [bind]. rewrite !map_map. apply (in_turn_map (fun x => Ok (snd (snd x)))). reflexivity.
  - intros e He. apply in_map_iff in He. destruct He as [x [<- Hx]]. destruct (Hq x (Hq' x Hx)) as [k [_ [_ [_ [H _]]]]]. exact H.
  - intros keep.
    assert (Hw : exists ws, Forall2 (fun x w => exists k, get_slot (fst x) = Ok (Some k)
        /\ xml_value E (settle keep (snd (snd x))) (Some k) = Ok w /\ reordered (faded keep (fst (snd x))) w) q' ws).
    { apply choose_list. intros x Hx. destruct (Hq x (Hq' x Hx)) as [k [H1 [_ [_ [_ H2]]]]]. destruct (H2 keep) as [w [H3 H4]].
      exists w, k. repeat split; assumption. }
    destruct Hw as [ws Hw].
    assert (Ht : forall x, In x q' -> tag_of (settle keep (snd (snd x))) = fst x).
    { intros x Hx. rewrite settle_tag. destruct (Hq x (Hq' x Hx)) as [k [_ [_ [H _]]]]. exact H. }
    assert (Hnq : NoDup (map fst q')).
    { apply (Permutation_NoDup (Permutation_map fst Hperm)).
      rewrite map_map in Hn. cbn [fst] in Hn. rewrite <- (map_map fst VStr) in Hn. apply NoDup_map_inv in Hn. exact Hn. }
    exists (combine (map fst q') ws). split.
    + rewrite !map_map. clear - Hw Ht. induction Hw as [|x w q' ws [k [H1 [H2 H3]]] _ IH]; [reflexivity|].
      cbn [map in_turn combine]. rewrite (Ht x (or_introl eq_refl)), H1. cbn [bind]. rewrite H2. cbn [bind].
      rewrite IH; [reflexivity|]. intros y Hy. apply Ht. right. exact Hy.
    + assert (Hf : map fst (combine (map fst q') ws) = map fst q').
      { clear - Hw. induction Hw as [|x w q' ws _ _ IH]; [reflexivity|]. cbn [map combine fst]. rewrite IH. reflexivity. }
      rewrite dict_of_pairs; [|rewrite Hf; exact Hnq]. rewrite faded_dict.
      apply reordered_dict with (map (fun x => (VStr (fst x), faded keep (fst (snd x)))) q').
      * rewrite map_map. cbn [fst snd]. apply Permutation_map. exact Hperm.
      * clear - Hw. induction Hw as [|x w q' ws [k [_ [_ H]]] _ IH]; cbn [map combine]; constructor; [split; [reflexivity|exact H]|exact IH].
Qed.

Lemma leaf_carries E (T X : str -> Prop) k tag v s : T tag -> X s ->
  xml_element E v tag (Some k) = Ok (Elem tag [] (Some s) []) ->
  (forall keep, exists w, xml_value E (settle keep (Elem tag [] (Some s) [])) (Some k) = Ok w /\ reordered (faded keep v) w) ->
  carries E T X k tag v (Elem tag [] (Some s) []).
Proof. intros HT HX H1 H2. split; [exact H1|]. split; [reflexivity|]. split; [apply written_text; assumption|exact H2]. Qed.

Lemma node_carries E (T X : str -> Prop) k tag v l : T tag ->
  xml_element E v tag (Some k) = Ok (Elem tag [] None l) -> (forall e, In e l -> written T X e) ->
  (forall keep, exists w, xml_value E (settle keep (Elem tag [] None l)) (Some k) = Ok w /\ reordered (faded keep v) w) ->
  carries E T X k tag v (Elem tag [] None l).
Proof. intros HT H1 Hl H2. split; [exact H1|]. split; [reflexivity|]. split; [apply written_node; assumption|exact H2]. Qed.

Lemma supported_element E (T X : str -> Prop) :
  X $"true" -> X $"false" -> (forall z, X (Z_text z)) ->
  lower (e_ulower E) $"true" = $"true" -> lower (e_ulower E) $"false" = $"false" ->
  forall v k tag, supported E T X k v -> T tag -> exists e, carries E T X k tag v e.
Proof.
  intros Xt Xf Xz Lt Lf. induction v as [v IH] using val_ind'. intros k tag Hs HT.
  inversion Hs as [k'|b|mn mx z|mn mx x Hx HX|k' s Hk HX|fs st od o l Hn Hl|f p k' kf r o l Hf Hn Hk Hl|f p k' t a b u l Hf Ht HTt Hl|fs l Hlen Hl]; subst.
  - exists (Elem tag [($"null", $"true")] None []). split; [reflexivity|]. split; [reflexivity|]. split; [apply written_null, HT|].
    intros keep. exists VNone. split; [reflexivity|]. destruct keep; apply reordered_scalar; exact I.
  - eexists. apply leaf_carries; [exact HT| |reflexivity|].
    + destruct b; assumption.
    + intros keep. exists (VBool b). split; [|destruct keep; apply reordered_scalar; exact I].
      destruct b; cbn [truthy settle xml_value]; [change (match $"true" with [] => _ | _ => Some $"true" end) with (Some $"true")|change (match $"false" with [] => _ | _ => Some $"false" end) with (Some $"false")];
        cbn [aget]; [rewrite Lt|rewrite Lf]; reflexivity.
  - eexists. apply (leaf_carries E T X _ tag _ (Z_text z)); [exact HT|apply Xz|reflexivity|].
    intros keep. exists (VInt z). split; [|destruct keep; apply reordered_scalar; exact I].
    cbn [settle xml_value aget map]. destruct (Z_text z) as [|c s] eqn:Hz; [exfalso; exact (Z_text_nonempty z Hz)|].
    unfold number_text. rewrite <- Hz, (parse_int_text _ _ z (integer_str_is_text z)). reflexivity.
  - eexists. apply (leaf_carries E T X _ tag _ (e_str E (VFloat x))); [exact HT|exact HX|reflexivity|].
    intros keep. exists (VFloat x). split; [|destruct keep; apply reordered_scalar; exact I].
    cbn [settle xml_value aget map]. destruct (e_str E (VFloat x)) as [|c s] eqn:Hz.
    + exfalso. vm_compute in Hx. discriminate Hx.
    + unfold number_text. rewrite Hx. reflexivity.
  - exists (Elem tag [] (Some s) []).
    assert (He : xml_element E (VStr s) tag (Some k) = Ok (Elem tag [] (Some s) [])).
    { destruct k; try reflexivity; exfalso; apply Hk; vm_compute; tauto. }
    apply leaf_carries; [exact HT|exact HX|exact He|].
    intros keep. exists (match s with [] => if keep then VStr [] else VNone | _ => VStr s end). split.
    + destruct k; try (exfalso; apply Hk; vm_compute; tauto); cbn [settle xml_value aget map]; destruct s, keep; reflexivity.
    + destruct s, keep; apply reordered_scalar; exact I.
  - destruct (entries E T X (fun _ => None) l (structure_slot E (SPlain fs)) o) as [children [H1 [H2 H3]]]; [|exact Hn|].
    { intros key v Hin. destruct (Hl key v Hin) as [s [f [p [k [-> [HTs [Hg [Hf Hv]]]]]]]].
      destruct (IH v) with (k := k) (tag := s) as [e He]; [|exact Hv|exact HTs|].
      { cbn [subvals]. apply in_flat_map. exists (VStr s, v). split; [exact Hin|right; left; reflexivity]. }
      exists s, k, e. split; [reflexivity|]. split; [|exact He]. cbn [structure_slot]. unfold get. rewrite Hg, (field_at_kind _ _ _ _ Hf). reflexivity. }
    exists (Elem tag [] None children). apply node_carries; [exact HT| |exact H2|].
    + cbn [xml_element]. destruct (truthy (VDict o l)) eqn:Htr; cbn [negb].
      * destruct (sorted_items _) as [items|x] in H1 |- *; cbn [bind] in H1 |- *; [rewrite H1; reflexivity|discriminate].
      * destruct l; [|discriminate Htr]. cbn in H1. injection H1 as <-. reflexivity.
    + intros keep. destruct (H3 keep) as [pairs [Hp Hr]]. exists (dict_of pairs). split; [|exact Hr].
      cbn [settle xml_value aget]. rewrite Hp. reflexivity.
  - destruct (entries E T X (fun _ => None) l (fun _ => Ok (Some k')) o) as [children [H1 [H2 H3]]]; [|exact Hn|].
    { intros key v Hin. destruct (Hk key v Hin) as [s [-> HTs]].
      destruct (IH v) with (k := k') (tag := s) as [e He]; [|exact (Hl _ _ Hin)|exact HTs|].
      { cbn [subvals]. apply in_flat_map. exists (VStr s, v). split; [exact Hin|right; left; reflexivity]. }
      exists s, k', e. split; [reflexivity|]. split; [reflexivity|exact He]. }
    exists (Elem tag [] None children). apply node_carries; [exact HT| |exact H2|].
    + cbn [xml_element]. rewrite (field_at_kind _ _ _ _ Hf). destruct (truthy (VDict o l)) eqn:Htr; cbn [negb].
      * assert (Hm : map (fun kv : val * val => (fst kv, match fst kv with VStr key => xml_element E (snd kv) key (Some k') | _ => py TypeError end)) l
                     = map (fun kv : val * val => (fst kv, match fst kv with VStr key => do slot' <- Ok (Some k'); xml_element E (snd kv) key slot' | _ => py KeyError end)) l).
        { apply map_ext_in. intros [key v] Hin. destruct (Hk key v Hin) as [s [-> _]]. reflexivity. }
        rewrite Hm. destruct (sorted_items _) as [items|x] in H1 |- *; cbn [bind] in H1 |- *; [rewrite H1; reflexivity|discriminate].
      * destruct l; [|discriminate Htr]. cbn in H1. injection H1 as <-. reflexivity.
    + intros keep. destruct (H3 keep) as [pairs [Hp Hr]]. exists (dict_of pairs). split; [|exact Hr].
      cbn [settle xml_value aget]. rewrite (field_at_kind _ _ _ _ Hf).
      cbn [bind] in Hp. rewrite Hp. reflexivity.
  - destruct (choose_list (fun v e => carries E T X k' t v e) l) as [es He].
    { intros v Hv. apply IH; [exact Hv|exact (Hl v Hv)|exact HTt]. }
    exists (Elem tag [] None es). apply node_carries; [exact HT| | |].
    + cbn [xml_element]. rewrite (field_at_kind _ _ _ _ Hf), (field_at_tag _ _ _ _ _ _ Hf Ht). cbn [bind].
      destruct (truthy (VList l)) eqn:Htr; cbn [negb].
      * assert (Hc : in_turn (map (fun x => xml_element E x t (Some k')) l) = Ok es).
        { clear - He. induction He as [|v e l es [H _] _ IH]; [reflexivity|]. cbn [map in_turn]. rewrite H. cbn [bind]. rewrite IH. reflexivity. }
        rewrite Hc. reflexivity.
      * destruct l; [|discriminate Htr]. inversion He. reflexivity.
    + intros e Hin. destruct (Forall2_in _ _ _ He e Hin) as [v [_ [_ [_ [H _]]]]]. exact H.
    + intros keep. assert (Hw : exists ws, in_turn (map (fun c => xml_value E c (Some k')) (map (settle keep) es)) = Ok ws
                                           /\ Forall2 reordered (map (faded keep) l) ws).
      { clear - He. induction He as [|v e l es [_ [_ [_ H]]] _ [ws [H1 H2]]]; [exists []; split; constructor|].
        destruct (H keep) as [w [H3 H4]]. exists (w :: ws). cbn [map in_turn]. rewrite H3. cbn [bind]. rewrite H1. split; [reflexivity|constructor; assumption]. }
      destruct Hw as [ws [H1 H2]]. exists (VList ws). cbn [settle xml_value aget]. rewrite (field_at_kind _ _ _ _ Hf), H1.
      split; [reflexivity|]. rewrite faded_list. apply reordered_list, H2.
  - assert (Hc : exists es,
      (forall e, In e es -> written T X e)
      /\ (fix go (fs : list field) (l : list val) {struct l} : res (list elem) :=
                                match l, fs with
                                | x :: l', f :: fs' =>
                                    do title <- slot_tag E $"value" f;
                                    do e <- xml_element E x title (kind_at E f);
                                    do r <- go fs' l';
                                    Ok (e :: r)
                                | _, _ => Ok []
                                end) fs l = Ok es
      /\ forall keep, exists ws,
         (fix go (fs : list field) (l : list elem) {struct l} : res (list val) :=
                     match l with
                     | [] => Ok []
                     | c :: l' =>
                         match fs with
                         | f :: fs' => do v <- xml_value E c (kind_at E f); do r <- go fs' l'; Ok (v :: r)
                         | [] => py IndexError
                         end
                     end) fs (map (settle keep) es) = Ok ws
         /\ Forall2 reordered (map (faded keep) l) ws).
    { clear Hs. revert l Hlen Hl IH. induction fs as [|f fs IHf]; intros [|x l] Hlen Hl IH; try discriminate.
      { exists []. split; [intros e []|]. split; [reflexivity|]. intros keep. exists []. split; constructor. }
      destruct (IHf l) as [es [H1 [H2 H3]]].
      { injection Hlen as Hlen. exact Hlen. }
      { intros i g v Hg Hv. exact (Hl (S i) g v Hg Hv). }
      { intros w Hw. apply IH. right. exact Hw. }
      destruct (Hl O f x eq_refl eq_refl) as [p [k [t [Hf [Ht [HTt Hsx]]]]]].
      destruct (IH x (or_introl eq_refl) k t Hsx HTt) as [e [C1 [C2 [C3 C4]]]].
      exists (e :: es). split; [intros e' [<-|He']; [exact C3|exact (H1 e' He')]|].
      rewrite (field_at_kind _ _ _ _ Hf), (field_at_tag _ _ _ _ _ _ Hf Ht). cbn [bind]. rewrite C1. cbn [bind]. rewrite H2. split; [reflexivity|].
      intros keep. destruct (C4 keep) as [w [W1 W2]]. destruct (H3 keep) as [ws [W3 W4]]. exists (w :: ws). cbn [map]. rewrite (field_at_kind _ _ _ _ Hf), W1. cbn [bind]. rewrite W3.
      split; [reflexivity|constructor; assumption]. }
    destruct Hc as [es [H1 [H2 H3]]].
    exists (Elem tag [] None es). apply node_carries; [exact HT| |exact H1|].
    + cbn [xml_element]. destruct (truthy (VTuple l)) eqn:Htr; cbn [negb].
      * rewrite H2. reflexivity.
      * destruct l; [|discriminate Htr]. destruct fs; [|discriminate Hlen]. injection H2 as <-. reflexivity.
    + intros keep. destruct (H3 keep) as [ws [H4 H5]]. exists (VTuple ws). cbn [settle xml_value aget]. rewrite H4.
      split; [reflexivity|]. rewrite faded_tuple. apply reordered_tuple, H5.
Qed.

(** ** Elements and their text *)

Definition lexes (s : str) (evs : list event) (rest : str) : Prop :=
  exists m, (m + length rest <= length s)%nat
            /\ forall n, events (m + n) s = (do r <- events n rest; Ok (evs ++ r)).

Lemma bind_assoc {A B C} (r : res A) (f : A -> res B) (g : B -> res C) : (do y <- (do x <- r; f x); g y) = (do x <- r; do y <- f x; g y).
Proof. destruct r; reflexivity. Qed.

Lemma lexes_nil s : lexes s [] s.
Proof. exists O. split; [lia|]. intros n. cbn [Nat.add]. destruct (events n s); reflexivity. Qed.

Lemma lexes_trans s evs s' evs' s'' : lexes s evs s' -> lexes s' evs' s'' -> lexes s (evs ++ evs') s''.
Proof.
  intros [m [H1 H2]] [m' [H3 H4]]. exists (m + m')%nat. split; [lia|]. intros n.
  rewrite <- Nat.add_assoc, H2, H4, bind_assoc. destruct (events n s''); cbn [bind]; [rewrite app_assoc|]; reflexivity.
Qed.

Lemma lexes_one s evs rest : next_events s = Ok (evs, rest) -> (length rest < length s)%nat -> lexes s evs rest.
Proof.
  intros H1 H2. exists 1%nat. split; [lia|]. intros n. destruct s as [|c s]; [inversion H2|].
  change (events (1 + n) (c :: s)) with (do e <- next_events (c :: s); do r <- events n (snd e); Ok (fst e ++ r)).
  rewrite H1. reflexivity.
Qed.

Lemma lexes_all s evs : lexes s evs [] -> events (length s) s = Ok evs.
Proof.
  intros [m [H1 H2]]. cbn [length] in H1. replace (length s) with (m + (length s - m))%nat by lia.
  rewrite H2. destruct (length s - m)%nat; cbn [events bind]; rewrite app_nil_r; reflexivity.
Qed.

Lemma to_ascii_app a b : to_ascii (a ++ b) = to_ascii a ++ to_ascii b.
Proof. apply flat_map_app. Qed.

Lemma span_all p s r : (forall c, In c s -> p c = true) -> (forall c r', r = c :: r' -> p c = false) -> span p (s ++ r) = (s, r).
Proof.
  intros H1 H2. induction s as [|c s IH]; cbn [app span].
  - destruct r as [|c r]; [reflexivity|]. cbn [span]. rewrite (H2 c r eq_refl). reflexivity.
  - rewrite (H1 c (or_introl eq_refl)), IH; [reflexivity|]. intros d Hd. apply H1. right. exact Hd.
Qed.

Lemma tag_letter_start c : tag_letter c -> name_start c = true.
Proof.
  unfold tag_letter, name_start. intros [H|[H| ->]]; [| |reflexivity].
  - replace ((65 <=? c) && (c <=? 90)) with true; [reflexivity|]. symmetry. apply andb_true_intro. split; apply N.leb_le; lia.
  - replace ((97 <=? c) && (c <=? 122)) with true; [rewrite orb_true_r; reflexivity|]. symmetry. apply andb_true_intro. split; apply N.leb_le; lia.
Qed.

Lemma tag_ok_chars s : tag_ok s -> exists c s', s = c :: s' /\ name_start c = true /\ (forall d, In d s -> name_char d = true /\ d < 128).
Proof.
  intros [c [s' [-> [Hc Hs]]]]. exists c, s'. split; [reflexivity|]. split; [apply tag_letter_start, Hc|].
  assert (Hl : forall d, tag_letter d -> name_char d = true /\ d < 128).
  { intros d Hd. split; [unfold name_char; rewrite (tag_letter_start d Hd); reflexivity|]. unfold tag_letter in Hd. lia. }
  intros d [<-|Hd]; [exact (Hl _ Hc)|]. destruct (Hs d Hd) as [H|H]; [exact (Hl _ H)|]. split; [|lia].
  unfold name_char. destruct H as [H|[-> | ->]]; [|reflexivity|reflexivity].
  replace ((48 <=? d) && (d <=? 57)) with true; [rewrite orb_true_r; reflexivity|]. symmetry. apply andb_true_intro. split; apply N.leb_le; lia.
Qed.

Lemma tag_ascii s : tag_ok s -> to_ascii s = s.
Proof.
  intros H. destruct (tag_ok_chars s H) as [_ [_ [_ [_ Hs]]]]. clear H. induction s as [|c s IH]; [reflexivity|].
  cbn [to_ascii flat_map]. destruct (Hs c (or_introl eq_refl)) as [_ Hc]. replace (c <? 128) with true by (symmetry; apply N.ltb_lt; exact Hc).
  cbn [app]. f_equal. apply IH. intros d Hd. apply Hs. right. exact Hd.
Qed.

(** A start tag is read up to the character after its name. *)
Lemma read_tag s r : tag_ok s -> (forall c r', r = c :: r' -> name_char c = false /\ foreign c = false) -> read_name (s ++ r) = Ok (s, r).
Proof.
  intros Hs Hr. destruct (tag_ok_chars s Hs) as [c [s' [-> [Hc Hall]]]]. cbn [app read_name]. rewrite Hc.
  change (c :: s' ++ r) with ((c :: s') ++ r).
  rewrite span_all; [|intros d Hd; apply Hall, Hd|intros d r' H; apply (Hr d r' H)]. cbn [snd].
  destruct r as [|d r']; [reflexivity|]. destruct (Hr d r' eq_refl) as [_ ->]. reflexivity.
Qed.

Lemma tag_head s r : tag_ok s -> exists c s', s ++ r = c :: s' /\ (c =? 33) = false /\ (c =? 63) = false /\ (c =? 47) = false.
Proof.
  intros [c [s' [-> [Hc _]]]]. exists c, (s' ++ r). split; [reflexivity|]. unfold tag_letter in Hc.
  repeat split; apply N.eqb_neq; lia.
Qed.

Lemma lex_start tag rest attrs closed' r :
  tag_ok tag -> (forall c r', rest = c :: r' -> name_char c = false /\ foreign c = false) ->
  (forall n, read_attrs (S (S n)) [] rest = Ok (attrs, closed', r)) -> (length r < length rest)%nat ->
  lexes (60 :: tag ++ rest) (Start tag attrs :: if closed' then [End tag] else []) r.
Proof.
  intros Ht Hc Ha Hl. apply lexes_one.
  - unfold next_events. destruct (tag_head tag rest Ht) as [c [s' [H [H1 [H2 H3]]]]].
    change (60 =? 60) with true. cbv iota. 
    assert (Hrn := read_tag tag rest Ht Hc). rewrite H in Hrn |- *. rewrite H1, H2, H3. cbn [orb]. rewrite Hrn. cbn [bind snd fst length].
    rewrite Ha. reflexivity.
  - cbn [length]. rewrite app_length. lia.
Qed.

Lemma lex_end tag r : tag_ok tag -> lexes (60 :: 47 :: tag ++ 62 :: r) [End tag] r.
Proof.
  intros Ht. apply lexes_one.
  - unfold next_events. change (60 =? 60) with true. cbv iota. change (47 =? 33) with false. change (47 =? 63) with false. change (47 =? 47) with true. cbn [orb].
    rewrite (read_tag tag (62 :: r) Ht). 2:{ intros c r' [= <- _]. split; reflexivity. }
    cbn [bind snd fst span]. change (xml_white 62) with false. cbn [snd]. reflexivity.
  - cbn [length]. rewrite app_length. cbn [length]. lia.
Qed.

Lemma read_digits : forall ds acc, (forall d, In d ds -> d < 10) ->
  read_number 10 acc (render ds) = Some (fold_left (fun a d => 10 * a + d) ds acc).
Proof.
  induction ds as [|d ds IH]; intros acc H; [reflexivity|]. cbn [render map read_number fold_left].
  assert (Hd := H d (or_introl eq_refl)). unfold hex_digit.
  replace ((48 <=? 48 + d) && (48 + d <=? 57)) with true by (symmetry; apply andb_true_intro; split; apply N.leb_le; lia).
  replace (48 + d - 48) with d by lia. replace (d <? 10) with true by (symmetry; apply N.ltb_lt; exact Hd). apply IH. intros e He. apply H. right. exact He.
Qed.

Lemma reference_number n : xml_char n = true -> reference (35 :: N_text n) = Some n.
Proof.
  intros H. unfold reference.
  replace (str_eqb (35 :: N_text n) $"amp") with false by reflexivity.
  replace (str_eqb (35 :: N_text n) $"lt") with false by reflexivity.
  replace (str_eqb (35 :: N_text n) $"gt") with false by reflexivity.
  replace (str_eqb (35 :: N_text n) $"quot") with false by reflexivity.
  replace (str_eqb (35 :: N_text n) $"apos") with false by reflexivity.
  assert (Hn : read_number 10 0 (N_text n) = Some n).
  { unfold N_text. rewrite read_digits; [|intros d Hd; exact (proj1 (Forall_forall _ _) (digits_dig n) d Hd)].
    f_equal. exact (digits_val_digits n). }
  assert (Hc : forall c, In c (N_text n) -> 48 <= c <= 57) by (intros c; apply N_text_chars).
  assert (He : N_text n <> []) by (unfold N_text, render; intros Hm; apply map_eq_nil in Hm; exact (digits_nonempty n Hm)).
  destruct (N_text n) as [|c s]; [congruence|].
  assert (Hm : match 35 :: c :: s with 35 :: 120 :: d :: s' => read_number 16 0 (d :: s') | 35 :: d :: s' => read_number 10 0 (d :: s') | _ => None end = read_number 10 0 (c :: s)).
  { specialize (Hc c (or_introl eq_refl)). destruct (N.eqb_spec c 120); [lia|].
    clear - n0. destruct c as [|p]; [reflexivity|]. do 7 (destruct p as [p|p|]; try reflexivity). exfalso. exact (n0 eq_refl). }
  rewrite Hm, Hn, H. reflexivity.
Qed.

(** One character of a text as it is written. *)
Definition piece (c : N) : str :=
  if c =? 38 then $"&amp;" else if c =? 60 then $"&lt;" else if c =? 62 then $"&gt;"
  else if c <? 128 then [c] else $"&#" ++ N_text c ++ $";".

Lemma escaped_pieces s : to_ascii (escape_cdata s) = flat_map piece s.
Proof.
  induction s as [|c s IH]; [reflexivity|]. cbn [escape_cdata flat_map]. rewrite to_ascii_app, IH. f_equal. unfold piece.
  destruct (c =? 38); [reflexivity|]. destruct (c =? 60); [reflexivity|]. destruct (c =? 62); [reflexivity|].
  cbn [to_ascii flat_map]. apply app_nil_r.
Qed.

Lemma piece_head c : exists d r, piece c = d :: r /\ d <> 62.
Proof.
  unfold piece. destruct (c =? 38) eqn:H1; [eexists _, _; split; [reflexivity|discriminate]|].
  destruct (c =? 60) eqn:H2; [eexists _, _; split; [reflexivity|discriminate]|].
  destruct (c =? 62) eqn:H3; [eexists _, _; split; [reflexivity|discriminate]|].
  destruct (c <? 128); [|eexists _, _; split; [reflexivity|discriminate]].
  exists c, []. split; [reflexivity|]. apply N.eqb_neq, H3.
Qed.

Lemma text_head s r : exists d r', flat_map piece s ++ 60 :: r = d :: r' /\ d <> 62.
Proof.
  destruct s as [|c s]; [exists 60, r; split; [reflexivity|discriminate]|].
  cbn [flat_map]. destruct (piece_head c) as [d [r' [-> H]]]. exists d, (r' ++ flat_map piece s ++ 60 :: r).
  split; [cbn [app]; rewrite <- app_assoc; reflexivity|exact H].
Qed.

Definition representable (c : N) : Prop :=
  c = 9 \/ c = 10 \/ 32 <= c < 55296 \/ 57344 <= c < 65534 \/ 65536 <= c < 1114112.

Lemma representable_char c : representable c -> xml_char c = true /\ (c =? 13) = false.
Proof.
  unfold representable, xml_char. intros H. split; [|apply N.eqb_neq; lia]. destruct H as [->|[->|[H|[H|H]]]]; [reflexivity|reflexivity|..].
  - replace ((32 <=? c) && (c <? 55296)) with true; [rewrite ?orb_true_r; reflexivity|]. symmetry. apply andb_true_intro. split; [apply N.leb_le|apply N.ltb_lt]; lia.
  - replace ((57344 <=? c) && (c <? 65534)) with true; [rewrite ?orb_true_r; reflexivity|]. symmetry. apply andb_true_intro. split; [apply N.leb_le|apply N.ltb_lt]; lia.
  - replace ((65536 <=? c) && (c <? 1114112)) with true; [rewrite ?orb_true_r; reflexivity|]. symmetry. apply andb_true_intro. split; [apply N.leb_le|apply N.ltb_lt]; lia.
Qed.

Lemma lex_reference name c r : (forall d, In d name -> d <> 59) -> reference name = Some c ->
  lexes (38 :: name ++ 59 :: r) [Ref c] r.
Proof.
  intros H1 H2. apply lexes_one; [|cbn [length]; rewrite app_length; cbn [length]; lia].
  unfold next_events. change (38 =? 60) with false. change (38 =? 38) with true. cbv iota.
  rewrite (span_all (fun d => negb (d =? 59)) name (59 :: r)).
  - rewrite H2. reflexivity.
  - intros d Hd. apply negb_true_iff, N.eqb_neq, H1, Hd.
  - intros d r' [= <- _]. reflexivity.
Qed.

(** How a character of a text is reported. *)
Definition said (c : N) : event :=
  if c =? 38 then Ref c else if c =? 60 then Ref c else if c =? 62 then Ref c else if c <? 128 then Data c else Ref c.

Lemma lex_piece c r : representable c -> (forall r', r <> 93 :: 62 :: r') -> lexes (piece c ++ r) [said c] r.
Proof.
  intros Hc Hr. destruct (representable_char c Hc) as [Hx H13]. unfold piece, said.
  destruct (c =? 38) eqn:H1; [apply N.eqb_eq in H1; subst c; apply (lex_reference $"amp"); [|reflexivity]; vm_compute; intuition congruence|].
  destruct (c =? 60) eqn:H2; [apply N.eqb_eq in H2; subst c; apply (lex_reference $"lt"); [|reflexivity]; vm_compute; intuition congruence|].
  destruct (c =? 62) eqn:H3; [apply N.eqb_eq in H3; subst c; apply (lex_reference $"gt"); [|reflexivity]; vm_compute; intuition congruence|].
  destruct (c <? 128) eqn:H4.
  - apply lexes_one; [|cbn [app length]; lia]. unfold next_events. cbn [app]. rewrite H2, H1, Hx, H13. cbn [negb].
    destruct (c =? 93) eqn:H5; [|reflexivity]. cbn [andb].
    replace (starts_with $"]>" r) with false; [reflexivity|]. symmetry. unfold starts_with.
    destruct r as [|d [|d' r]]; [reflexivity|cbn; destruct (d =? 93); reflexivity|]. cbn.
    destruct (N.eqb_spec d 93); [|reflexivity]. destruct (N.eqb_spec d' 62); [|reflexivity]. subst. exfalso. exact (Hr r eq_refl).
  - replace (($"&#" ++ N_text c ++ $";") ++ r) with (38 :: (35 :: N_text c) ++ 59 :: r).
    + apply lex_reference; [|apply reference_number, Hx]. intros d [<-|Hd]; [discriminate|]. apply N_text_chars in Hd. lia.
    + rewrite <- !app_assoc. reflexivity.
Qed.

Lemma lex_text s r : text_ok s -> lexes (flat_map piece s ++ 60 :: r) (map said s) (60 :: r).
Proof.
  induction s as [|c s IH]; intros Hs; [apply lexes_nil|].
  cbn [flat_map map]. rewrite <- app_assoc. change (said c :: map said s) with ([said c] ++ map said s). eapply lexes_trans.
  - apply lex_piece; [exact (Hs c (or_introl eq_refl))|]. intros r' H.
    destruct s as [|d s]; [discriminate H|]. cbn [flat_map] in H. destruct (text_head s r) as [x [y [Hy Hx]]]. rewrite <- app_assoc, Hy in H.
    destruct (piece_head d) as [d' [p' [Hp Hd]]]. rewrite Hp in H. cbn [app] in H. injection H as -> H.
    assert (Hpd : p' = []).
    { unfold piece in Hp. destruct (d =? 38); [discriminate|]. destruct (d =? 60); [discriminate|]. destruct (d =? 62); [discriminate|].
      destruct (d <? 128); [injection Hp as _ <-; reflexivity|discriminate]. }
    subst p'. cbn [app] in H. injection H as H _. exact (Hx H).
  - apply IH. intros d Hd. apply Hs. right. exact Hd.
Qed.

(** What an element is reported as. *)
Fixpoint reported (e : elem) : list event :=
  let 'Elem tag attrs text children := e in
  Start tag attrs :: map said (match text with Some s => s | None => [] end) ++ flat_map reported children ++ [End tag].

Lemma attrs_null n r : read_attrs (S (S n)) [] (($" null=" ++ 34 :: $"true" ++ 34 :: $" />") ++ r) = Ok ([($"null", $"true")], true, r).
Proof. reflexivity. Qed.
Lemma attrs_empty n r : read_attrs (S n) [] ($" />" ++ r) = Ok ([], true, r).
Proof. reflexivity. Qed.
Lemma attrs_none n r : read_attrs (S n) [] (62 :: r) = Ok ([], false, r).
Proof. reflexivity. Qed.

Lemma lexes_eq s s' evs r : lexes s' evs r -> s' = s -> lexes s evs r.
Proof. intros H <-. exact H. Qed.

Lemma lex_element e : written tag_ok text_ok e -> forall r, lexes (to_ascii (xml_markup e) ++ r) (reported e) r.
Proof.
  induction e as [tag attrs text children IH] using elem_ind'. intros Hw r. inversion Hw as [t Ht|t s Ht Hs|t l Ht Hl]; subst.
  - apply (lexes_eq _ (60 :: tag ++ ($" null=" ++ 34 :: $"true" ++ 34 :: $" />") ++ r)).
    + cbn [reported]. apply (lex_start tag (($" null=" ++ 34 :: $"true" ++ 34 :: $" />") ++ r) [($"null", $"true")] true r Ht).
      * intros c r' [= <- _]. split; reflexivity.
      * intros n. apply attrs_null.
      * rewrite app_length. cbn. lia.
    + cbn [xml_markup flat_map fst snd app]. rewrite !to_ascii_app, (tag_ascii tag Ht), <- !app_assoc. reflexivity.
  - destruct s as [|c s].
    + apply (lexes_eq _ (60 :: tag ++ $" />" ++ r)).
      * cbn [reported]. apply (lex_start tag ($" />" ++ r) [] true r Ht).
        -- intros c r' [= <- _]. split; reflexivity.
        -- intros n. apply attrs_empty.
        -- rewrite app_length. cbn. lia.
      * cbn [xml_markup flat_map fst snd app]. rewrite !to_ascii_app, (tag_ascii tag Ht), <- !app_assoc. reflexivity.
    + apply (lexes_eq _ (60 :: tag ++ 62 :: flat_map piece (c :: s) ++ 60 :: 47 :: tag ++ 62 :: r)).
      * cbn [reported flat_map app]. change (Start tag [] :: map said (c :: s) ++ [End tag]) with ([Start tag []] ++ map said (c :: s) ++ [End tag]).
        eapply lexes_trans; [|eapply lexes_trans; [apply (lex_text (c :: s) (47 :: tag ++ 62 :: r) Hs)|apply lex_end, Ht]].
        apply (lex_start tag (62 :: flat_map piece (c :: s) ++ 60 :: 47 :: tag ++ 62 :: r) [] false _ Ht).
        -- intros d r' [= <- _]. split; reflexivity.
        -- intros n. apply attrs_none.
        -- cbn [length]. lia.
      * cbn [xml_markup]. rewrite !to_ascii_app, (tag_ascii tag Ht), <- !app_assoc, escaped_pieces. reflexivity.
  - destruct children as [|x l].
    + apply (lexes_eq _ (60 :: tag ++ $" />" ++ r)).
      * cbn [reported]. apply (lex_start tag ($" />" ++ r) [] true r Ht).
        -- intros c r' [= <- _]. split; reflexivity.
        -- intros n. apply attrs_empty.
        -- rewrite app_length. cbn. lia.
      * cbn [xml_markup flat_map fst snd app]. rewrite !to_ascii_app, (tag_ascii tag Ht), <- !app_assoc. reflexivity.
    + apply (lexes_eq _ (60 :: tag ++ 62 :: to_ascii (flat_map xml_markup (x :: l)) ++ 60 :: 47 :: tag ++ 62 :: r)).
      * change (reported (Elem tag [] None (x :: l))) with ([Start tag []] ++ flat_map reported (x :: l) ++ [End tag]).
        eapply lexes_trans; [|eapply lexes_trans; [|apply lex_end, Ht]].
        -- apply (lex_start tag (62 :: to_ascii (flat_map xml_markup (x :: l)) ++ 60 :: 47 :: tag ++ 62 :: r) [] false _ Ht).
           ++ intros d r' [= <- _]. split; reflexivity.
           ++ intros n. apply attrs_none.
           ++ cbn [length]. lia.
        -- generalize (60 :: 47 :: tag ++ 62 :: r). revert IH Hl. generalize (x :: l) as m. clear. intros m IH Hl.
           induction m as [|y m IHm]; intros r; [apply lexes_nil|]. cbn [flat_map]. rewrite to_ascii_app, <- app_assoc. eapply lexes_trans.
           ++ apply IH; [left; reflexivity|]. apply Hl. left. reflexivity.
           ++ apply IHm; intros z Hz; [apply IH|apply Hl]; right; exact Hz.
      * cbn [xml_markup]. rewrite !to_ascii_app, (tag_ascii tag Ht), <- !app_assoc. reflexivity.
Qed.

Lemma build_text s : forall tag attrs t evs stack root,
  build (map said s ++ evs) ({| f_tag := tag; f_attrs := attrs; f_text := t; f_children := [] |} :: stack) root
  = build evs ({| f_tag := tag; f_attrs := attrs; f_text := rev s ++ t; f_children := [] |} :: stack) root.
Proof.
  induction s as [|c s IH]; intros tag attrs t evs stack root; [reflexivity|]. cbn [map app].
  transitivity (build (map said s ++ evs) ({| f_tag := tag; f_attrs := attrs; f_text := c :: t; f_children := [] |} :: stack) root).
  { unfold said at 1. destruct (c =? 38), (c =? 60), (c =? 62), (c <? 128); reflexivity. }
  rewrite IH. cbn [rev]. rewrite <- app_assoc. reflexivity.
Qed.

Definition attach (e : elem) (g : frame) : frame :=
  {| f_tag := f_tag g; f_attrs := f_attrs g; f_text := f_text g; f_children := e :: f_children g |}.

Lemma build_element e : forall evs stack root, (stack = [] -> root = None) ->
  build (reported e ++ evs) stack root
  = match stack with
    | [] => build evs [] (Some (settle false e))
    | g :: stack' => build evs (attach (settle false e) g :: stack') root
    end.
Proof.
  induction e as [tag attrs text children IH] using elem_ind'. intros evs stack root Hr.
  cbn [reported app build].
  set (start := {| f_tag := tag; f_attrs := attrs; f_text := []; f_children := [] |}).
  replace (match stack, root with [], Some _ => parse_error | _, _ => build ((map said (match text with Some s => s | None => [] end) ++ flat_map reported children ++ [End tag]) ++ evs) (start :: stack) root end)
    with (build ((map said (match text with Some s => s | None => [] end) ++ flat_map reported children ++ [End tag]) ++ evs) (start :: stack) root).
  2:{ destruct stack; [rewrite (Hr eq_refl)|]; reflexivity. }
  rewrite <- !app_assoc. unfold start. rewrite build_text, app_nil_r.
  set (txt := rev (match text with Some s => s | None => [] end)).
  assert (Hc : forall l, (forall c, In c l -> In c children) -> forall evs' g, build (flat_map reported l ++ evs') (g :: stack) root
            = build evs' ({| f_tag := f_tag g; f_attrs := f_attrs g; f_text := f_text g; f_children := rev (map (settle false) l) ++ f_children g |} :: stack) root).
  { induction l as [|x l IHl]; intros Hin evs' g; [destruct g; reflexivity|]. cbn [flat_map]. rewrite <- app_assoc.
    rewrite (IH x (Hin x (or_introl eq_refl))); [|discriminate]. cbv iota beta. rewrite IHl; [|intros c Hcl; apply Hin; right; exact Hcl].
    unfold attach. cbn [f_tag f_attrs f_text f_children map rev]. rewrite <- app_assoc. reflexivity. }
  rewrite (Hc children (fun c H => H)). cbn [f_tag f_attrs f_text f_children app build]. rewrite str_eqb_refl. cbn [negb].
  assert (Hcl : closed {| f_tag := tag; f_attrs := attrs; f_text := txt; f_children := rev (map (settle false) children) ++ [] |} = settle false (Elem tag attrs text children)).
  { unfold closed. cbn [f_tag f_attrs f_text f_children settle]. rewrite app_nil_r, rev_involutive. f_equal. unfold txt.
    destruct text as [[|c s]|]; [reflexivity| |reflexivity].
    destruct (rev (c :: s)) as [|d t] eqn:Hd; [apply (f_equal (@rev N)) in Hd; rewrite rev_involutive in Hd; discriminate|]. rewrite <- Hd, rev_involutive. reflexivity. }
  rewrite Hcl. destruct stack; reflexivity.
Qed.

Lemma to_ascii_small s : Forall (fun c => c < 128) (to_ascii s).
Proof.
  induction s as [|c s IH]; [constructor|]. cbn [to_ascii flat_map]. apply Forall_app. split; [|exact IH].
  destruct (N.ltb_spec c 128); [constructor; [assumption|constructor]|].
  apply Forall_forall. intros d Hd. apply in_app_or in Hd. destruct Hd as [Hd|Hd]; [revert Hd; vm_compute; intuition; subst; reflexivity|].
  apply in_app_or in Hd. destruct Hd as [Hd|Hd]; [|revert Hd; vm_compute; intuition; subst; reflexivity].
  apply N_text_chars in Hd. lia.
Qed.

Lemma no_surrogates s : Forall (fun c => c < 128) s -> existsb surrogate_half s = false.
Proof.
  induction 1 as [|c s Hc Hs IH]; [reflexivity|]. cbn [existsb]. rewrite IH, orb_false_r. unfold surrogate_half.
  destruct (N.leb_spec 55296 c); [lia|reflexivity].
Qed.

Lemma markup_parse e (with_preamble : bool) : written tag_ok text_ok e ->
  xml_parse ((if with_preamble then preamble else []) ++ to_ascii (xml_markup e)) = Ok (settle false e).
Proof.
  intros Hw. unfold xml_parse.
  assert (Hp : (if starts_with preamble ((if with_preamble then preamble else []) ++ to_ascii (xml_markup e))
                then skipn (length preamble) ((if with_preamble then preamble else []) ++ to_ascii (xml_markup e))
                else (if with_preamble then preamble else []) ++ to_ascii (xml_markup e)) = to_ascii (xml_markup e)).
  { destruct with_preamble.
    - unfold starts_with. rewrite firstn_app, Nat.sub_diag, firstn_all. cbn [firstn]. rewrite app_nil_r, str_eqb_refl.
      rewrite skipn_app, Nat.sub_diag, skipn_all. reflexivity.
    - cbn [app]. replace (starts_with preamble (to_ascii (xml_markup e))) with false; [reflexivity|]. symmetry.
      destruct e as [tag attrs text children]. assert (Ht : tag_ok tag) by (inversion Hw; assumption).
      cbn [xml_markup]. rewrite to_ascii_app, to_ascii_app, (tag_ascii _ Ht). destruct Ht as [c [s' [-> [Hc _]]]].
      unfold starts_with. change (to_ascii $"<") with [60]. cbn [app length preamble firstn].
      set (rest := firstn _ _). change (str_eqb (60 :: c :: rest) preamble) with (if c =? 63 then str_eqb rest (skipn 2 preamble) else false).
      unfold tag_letter in Hc. destruct (N.eqb_spec c 63) as [->|Hn]; [lia|]. apply str_eqb_neq. intros He. injection He as He _. exact (Hn He). }
  rewrite no_surrogates.
  2:{ apply Forall_app. split; [|apply to_ascii_small]. destruct with_preamble; [repeat constructor|constructor]. }
  set (whole := (if with_preamble then preamble else []) ++ to_ascii (xml_markup e)) in *.
  match goal with |- context [starts_with preamble ?m] => assert (Hw1 : m = whole) end.
  { assert (exists r, whole = 60 :: r) as [r ->]; [|reflexivity]. unfold whole. destruct with_preamble; [eexists; reflexivity|].
    destruct e as [tag attrs text children]. cbn [app xml_markup]. rewrite to_ascii_app. eexists. reflexivity. }
  cbv zeta. rewrite Hw1.
  rewrite Hp. assert (Hl := lex_element e Hw []). rewrite app_nil_r in Hl. rewrite (lexes_all _ _ Hl). cbn [bind].
  rewrite <- (app_nil_r (reported e)), build_element; reflexivity.
Qed.

(** ** The format *)

Lemma anything_true E : lower (e_ulower E) $"true" = $"true".
Proof. reflexivity. Qed.

(** @prop C64 Element tree level: what is written for a supported value is read back as that value, up
    to the order of dict entries; any tags and any texts. *)
Lemma xml_tree_roundtrip :
  forall E v k tag, supported E (fun _ => True) (fun _ => True) k v ->
    exists e w, xml_element E v tag (Some k) = Ok e /\ xml_value E e (Some k) = Ok w /\ reordered v w.
Proof.
  intros E v k tag Hs.
  destruct (supported_element E (fun _ => True) (fun _ => True) I I (fun _ => I) (anything_true E) eq_refl v k tag Hs I) as [e [H1 [_ [_ H2]]]].
  destruct (H2 true) as [w [H3 H4]]. rewrite settle_true in H3. exists e, w. split; [exact H1|]. split; [exact H3|exact H4].
Qed.
(** @example
Definition text0 := Fld p0 (KText None None None false).
Definition s64 := Fld p0 (KStructure (SPlain [($"a", Fld p0 (KInteger None None)); ($"b", Fld p0 (KSequence text0 None None false));
  ($"c", Fld (p_named $"c") (KTuple [Fld p0 KBoolean; Fld (p_named $"second") (KMap text0 None None)]))]) true None).
Definition v64 := VDict false [(VStr $"b", VList [VStr $"x<&y"; VStr [233; 128512]; VNone; VStr []]); (VStr $"a", VInt (-3));
  (VStr $"c", VTuple [VBool true; VDict false [(VStr $"k", VStr $"]]>")]])].
Ltac name_ok := match goal with |- tag_ok ?s => let s' := eval vm_compute in s in change (tag_ok s') end;
  eexists _, _; split; [reflexivity|]; split; [unfold tag_letter; lia|];
  intros d Hd; cbn [In] in Hd; unfold tag_letter; repeat destruct Hd as [<-|Hd]; try lia; destruct Hd.
Ltac text_ok := match goal with |- text_ok ?s => let s' := eval vm_compute in s in change (text_ok s') end;
  intros c Hc; cbn [In] in Hc; repeat destruct Hc as [<-|Hc]; try lia; destruct Hc.
Example C64_meets : forall T X : str -> Prop, (forall s, tag_ok s -> T s) -> (forall s, text_ok s -> X s) ->
  supported env0 T X (KStructure (SPlain [($"a", Fld p0 (KInteger None None)); ($"b", Fld p0 (KSequence text0 None None false));
  ($"c", Fld (p_named $"c") (KTuple [Fld p0 KBoolean; Fld (p_named $"second") (KMap text0 None None)]))]) true None) v64.
Proof.
  intros T X HT HX.
  assert (Ht : forall s, text_ok s -> supported env0 T X (KText None None None false) (VStr s)).
  { intros s Hs. apply sup_text; [vm_compute; intuition discriminate|apply HX, Hs]. }
  apply sup_structure; [repeat constructor; cbn; intuition discriminate|]. intros key v Hin. cbn [In] in Hin.
  destruct Hin as [[= <- <-]|[[= <- <-]|[[= <- <-]|[]]]].
  - eexists _, _, _, _. split; [reflexivity|]. split; [apply HT; name_ok|]. split; [reflexivity|]. split; [left; reflexivity|].
    eapply sup_sequence; [left; reflexivity|right; split; [left; reflexivity|reflexivity]|apply HT; name_ok|].
    intros v Hv. cbn [In] in Hv. destruct Hv as [<-|[<-|[<-|[<-|[]]]]]; try apply sup_null; apply Ht; text_ok.
  - eexists _, _, _, _. split; [reflexivity|]. split; [apply HT; name_ok|]. split; [reflexivity|]. split; [left; reflexivity|]. apply sup_integer.
  - eexists _, _, _, _. split; [reflexivity|]. split; [apply HT; name_ok|]. split; [reflexivity|]. split; [left; reflexivity|].
    apply sup_tuple; [reflexivity|]. intros i f v Hf Hv. destruct i as [|[|[|i]]]; try discriminate; injection Hf as <-; injection Hv as <-.
    + eexists _, _, $"value". split; [left; reflexivity|]. split; [right; split; [left; reflexivity|reflexivity]|]. split; [apply HT; name_ok|]. apply sup_boolean.
    + eexists _, _, $"second". split; [left; reflexivity|]. split; [left; split; [reflexivity|discriminate]|]. split; [apply HT; name_ok|].
      eapply sup_map; [left; reflexivity|repeat constructor; cbn; intuition discriminate| |]; intros key v [[= <- <-]|[]].
      * exists $"k". split; [reflexivity|apply HT; name_ok].
      * apply Ht; text_ok.
Qed.
Example C64_tree_example :
  (do e <- xml_element env0 v64 $"root" (kind_at env0 s64); xml_value env0 e (kind_at env0 s64))
  = Ok (VDict false [(VStr $"a", VInt (-3)); (VStr $"b", VList [VStr $"x<&y"; VStr [233; 128512]; VNone; VStr []]);
          (VStr $"c", VTuple [VBool true; VDict false [(VStr $"k", VStr $"]]>")]])]).
Proof. vm_compute. reflexivity. Qed.
@end *)

(** @prop C64 The text is ASCII and is read back as the value, with null in place of empty texts, provided
    that the tags are XML names and the texts of characters XML keeps. *)
Lemma xml_roundtrip :
  forall E with_preamble f p k root v,
    field_at E f p k -> titled p $"root" root -> tag_ok root -> supported E tag_ok text_ok k v ->
    exists t w, xml_serialize E with_preamble v f = Ok t /\ (forall c, In c t -> c < 128)
                /\ xml_unserialize E t f = Ok w /\ reordered (null_texts v) w.
Proof.
  intros E pre f p k root v Hf Ht Hr Hs.
  assert (Hz : forall z, text_ok (Z_text z)).
  { intros z c Hc. apply Z_text_chars in Hc. right. right. left. lia. }
  destruct (supported_element E tag_ok text_ok) with (v := v) (k := k) (tag := root) as [e [H1 [_ [H2 H3]]]];
    [| |exact Hz|apply anything_true|reflexivity|exact Hs|exact Hr|].
  1-2: intros c Hc; cbn in Hc; right; right; left; repeat destruct Hc as [<-|Hc]; try lia; destruct Hc.
  destruct (H3 false) as [w [H4 H5]].
  exists ((if pre then preamble else []) ++ to_ascii (xml_markup e)), w.
  split; [unfold xml_serialize; rewrite (field_at_tag _ _ _ _ _ _ Hf Ht); cbn [bind]; rewrite (field_at_kind _ _ _ _ Hf), H1; reflexivity|].
  split; [|split; [unfold xml_unserialize; rewrite (markup_parse e pre H2); cbn [bind]; rewrite (field_at_kind _ _ _ _ Hf); exact H4|exact H5]].
  intros c Hc. apply in_app_or in Hc. destruct Hc as [Hc|Hc].
  - destruct pre; [|destruct Hc]. revert c Hc. apply Forall_forall. vm_compute. repeat constructor.
  - unfold to_ascii in Hc. apply in_flat_map in Hc. destruct Hc as [d [_ Hc]]. destruct (d <? 128) eqn:Hd.
    + destruct Hc as [<-|[]]. apply N.ltb_lt, Hd.
    + apply in_app_or in Hc. destruct Hc as [Hc|Hc]; [cbn in Hc; intuition lia|]. apply in_app_or in Hc. destruct Hc as [Hc|Hc]; [apply N_text_chars in Hc; lia|cbn in Hc; intuition lia].
Qed.
(** @example
Example C64_example : (do t <- xml_serialize env0 true v64 s64; xml_unserialize env0 t s64)
  = Ok (VDict false [(VStr $"a", VInt (-3)); (VStr $"b", VList [VStr $"x<&y"; VStr [233; 128512]; VNone; VNone]);
          (VStr $"c", VTuple [VBool true; VDict false [(VStr $"k", VStr $"]]>")]])])
  /\ xml_serialize env0 false (VDict false [(VStr $"a", VNone)]) s64 = Ok ($"<root><a null=" ++ [34] ++ $"true" ++ [34] ++ $" /></root>").
Proof. split; vm_compute; reflexivity. Qed.
Example C64_applies : exists t w, xml_serialize env0 true v64 s64 = Ok t /\ (forall c, In c t -> c < 128)
  /\ xml_unserialize env0 t s64 = Ok w /\ reordered (null_texts v64) w.
Proof.
  eapply C64_xml_roundtrip; [left; reflexivity|right; split; [left; reflexivity|reflexivity]|name_ok|apply C64_meets; auto].
Qed.
Example C64_line_ends : (* other texts are not kept or not even read: CR becomes LF, NUL is refused *)
  (do t <- xml_serialize env0 true (VStr [97; 13; 98]) text0; xml_unserialize env0 t text0) = Ok (VStr [97; 10; 98])
  /\ (do t <- xml_serialize env0 true (VStr [0]) text0; xml_unserialize env0 t text0) = py (OtherError 1).
Proof. split; vm_compute; reflexivity. Qed.
@end *)

(** @prop C64 Unions are not supported: a value that is not null, and an element not marked null, raise
    NotImplementedError. *)
Lemma xml_union_refused :
  forall E p fs root v,
    titled p $"root" root ->
    (v <> VNone -> forall with_preamble, xml_serialize E with_preamble v (Fld p (KUnion fs)) = py NotImplementedError)
    /\ forall tag attrs text children, aget $"null" attrs = None ->
         xml_value E (Elem tag attrs text children) (Some (KUnion fs)) = py NotImplementedError.
Proof.
  intros E p fs root v Ht. split.
  - intros Hv pre. unfold xml_serialize. rewrite (field_at_tag E (Fld p (KUnion fs)) p (KUnion fs) _ _ (or_introl eq_refl) Ht). cbn [bind kind_at].
    destruct v; try reflexivity. congruence.
  - intros tag attrs text children Ha. cbn [xml_value]. rewrite Ha. reflexivity.
Qed.
(** @example
Example C64_union_example : xml_serialize env0 true (VInt 1) (Fld p0 (KUnion [Fld p0 KBoolean; Fld p0 (KInteger None None)])) = py NotImplementedError
  /\ xml_unserialize env0 $"<root>1</root>" (Fld p0 (KUnion [Fld p0 KBoolean])) = py NotImplementedError.
Proof. split; vm_compute; reflexivity. Qed.
@end *)

Lemma in_turn_fails {A} x (l : list (res A)) : (forall r, In r l -> (exists a, r = Ok a) \/ r = Raise x) -> In (Raise x) l -> in_turn l = Raise x.
Proof.
  induction l as [|r l IH]; intros H Hin; [destruct Hin|]. cbn [in_turn]. destruct (H r (or_introl eq_refl)) as [[a ->]| ->]; [|reflexivity].
  destruct Hin as [H'|Hin]; [discriminate|]. cbn [bind]. rewrite IH; [reflexivity| |exact Hin]. intros r' Hr'. apply H. right. exact Hr'.
Qed.

(** @prop C64 An entry that the structure does not define raises KeyError, whatever the others. *)
Lemma xml_unknown_entry :
  forall E fs strict order o l tag,
    NoDup (map fst l) ->
    (forall key v, In (key, v) l -> exists s, key = VStr s
       /\ (aget s fs = None \/ exists f p k, aget s fs = Some f /\ field_at E f p k /\ supported E (fun _ => True) (fun _ => True) k v)) ->
    (exists s v, In (VStr s, v) l /\ aget s fs = None) ->
    xml_element E (VDict o l) tag (Some (KStructure (SPlain fs) strict order)) = py KeyError.
Proof.
  intros E fs strict order o l tag Hn Hl [s0 [v0 [Hin0 Hs0]]]. cbn [xml_element].
  assert (Htr : truthy (VDict o l) = true) by (destruct l; [destruct Hin0|reflexivity]). rewrite Htr. cbn [negb].
  set (g := fun kv : val * val => (fst kv, match fst kv with VStr key => do slot' <- structure_slot E (SPlain fs) key; xml_element E (snd kv) key slot' | _ => py KeyError end)).
  assert (Hg : forall key v, In (key, v) l -> (exists e, snd (g (key, v)) = Ok e) \/ snd (g (key, v)) = py KeyError).
  { intros key v Hin. destruct (Hl key v Hin) as [s [-> [Hs|[f [p [k [Hs [Hf Hv]]]]]]]]; cbn [g fst snd structure_slot]; unfold get; rewrite Hs.
    - right. reflexivity.
    - left. rewrite (field_at_kind _ _ _ _ Hf). cbn [bind]. destruct (xml_tree_roundtrip E v k s Hv) as [e [_ [He _]]]. exists e. exact He. }
  assert (Hk : exists q, map g l = map (fun kv : str * res elem => (VStr (fst kv), snd kv)) q).
  { clear - Hl. induction l as [|[key v] l IH]; [exists []; reflexivity|]. destruct IH as [q Hq]; [intros k' v' Hin; apply Hl; right; exact Hin|].
    destruct (Hl key v (or_introl eq_refl)) as [s [-> _]]. exists ((s, snd (g (VStr s, v))) :: q). cbn [map]. rewrite Hq. reflexivity. }
  destruct Hk as [q Hq]. rewrite Hq. unfold sorted_items. rewrite keyed_strs. cbn [bind].
  assert (Hm : in_turn (map snd (map (fun kv : str * res elem => (VStr (fst kv), snd kv)) (fold_right insert_item [] q))) = py KeyError).
  { rewrite map_map. cbn [snd]. assert (Hp := sort_items_perm q). apply in_turn_fails.
    - intros r Hr. apply in_map_iff in Hr. destruct Hr as [[s r'] [<- Hr]]. apply (Permutation_in _ (Permutation_sym Hp)) in Hr.
      assert (Hi : In (VStr s, r') (map g l)) by (rewrite Hq; apply in_map_iff; exists (s, r'); split; [reflexivity|exact Hr]).
      apply in_map_iff in Hi. destruct Hi as [[key v] [Hi Hkv]]. assert (Hr' : r' = snd (g (key, v))) by (rewrite Hi; reflexivity). cbn [snd]. rewrite Hr'. apply Hg, Hkv.
    - assert (Hi : In (VStr s0, snd (g (VStr s0, v0))) (map g l)) by (apply in_map_iff; exists (VStr s0, v0); split; [reflexivity|exact Hin0]).
      rewrite Hq in Hi. apply in_map_iff in Hi. destruct Hi as [[s r] [Hi Hsr]]. injection Hi as -> Hr. apply in_map_iff. exists (s0, r). split.
      + cbn [snd]. rewrite Hr. cbn [g fst snd structure_slot]. unfold get. rewrite Hs0. reflexivity.
      + apply (Permutation_in _ Hp), Hsr. }
  rewrite Hm. reflexivity.
Qed.
(** @example
Example C64_unknown_example :
  xml_serialize env0 true (VDict false [(VStr $"zz", VStr $"?"); (VStr $"a", VInt 1)]) s64 = py KeyError
  /\ xml_unserialize env0 $"<root><zz>1</zz></root>" s64 = py KeyError.
Proof. split; vm_compute; reflexivity. Qed.
@end *)

(** @prop C64 Polymorphic structures are not supported: their entries are looked up among the variants,
    which are no fields.  An entry under the identity of a variant is an AttributeError unless it is null,
    any other entry a KeyError; only dicts of nulls under identities have an element. *)
Lemma xml_polymorphic_refused :
  forall E on vs strict order o l tag,
    l <> [] -> NoDup (map fst l) -> (forall key v, In (key, v) l -> exists s, key = VStr s) ->
    let identity key := exists i d, In (i, d) vs /\ veq (e_local E) i key = true in
    let out := xml_element E (VDict o l) tag (Some (KStructure (SPoly on vs) strict order)) in
    ((forall key v, In (key, v) l -> identity key) -> (exists key v, In (key, v) l /\ v <> VNone) -> out = py AttributeError)
    /\ ((forall key v, In (key, v) l -> v = VNone) -> (exists key v, In (key, v) l /\ ~ identity key) -> out = py KeyError)
    /\ ((forall key v, In (key, v) l -> v = VNone /\ identity key) -> exists children, out = Ok (Elem tag [] None children))
    /\ forall e, out = Ok e -> forall key v, In (key, v) l -> v = VNone /\ identity key.
Proof.
  intros E on vs strict order o l tag Hne Hn Hl identity out. unfold out. cbn [xml_element].
  assert (Htr : truthy (VDict o l) = true) by (destruct l; [congruence|reflexivity]). rewrite Htr. cbn [negb].
  set (g := fun kv : val * val => (fst kv, match fst kv with VStr key => do slot' <- structure_slot E (SPoly on vs) key; xml_element E (snd kv) key slot' | _ => py KeyError end)).
  assert (Hid : forall key, existsb (fun vl : val * list (str * field) => veq (e_local E) (fst vl) key) vs = true <-> identity key).
  { intros key. rewrite existsb_exists. split.
    - intros [[i d] [H1 H2]]. exists i, d. auto.
    - intros [i [d [H1 H2]]]. exists (i, d). auto. }
  assert (Hg : forall key v, In (key, v) l ->
            (identity key /\ v = VNone /\ exists e, snd (g (key, v)) = Ok e)
            \/ (identity key /\ v <> VNone /\ snd (g (key, v)) = py AttributeError)
            \/ (~ identity key /\ snd (g (key, v)) = py KeyError)).
  { intros key v Hin. destruct (Hl key v Hin) as [s ->]. specialize (Hid (VStr s)). cbn [g fst snd structure_slot].
    destruct (existsb (fun vl : val * list (str * field) => veq (e_local E) (fst vl) (VStr s)) vs).
    - assert (Hi : identity (VStr s)) by (apply Hid; reflexivity). cbn [bind].
      destruct v; try (right; left; split; [exact Hi|]; split; [discriminate|reflexivity]).
      left. split; [exact Hi|]. split; [reflexivity|]. eexists. reflexivity.
    - right. right. split; [|reflexivity]. intros Hi. apply Hid in Hi. discriminate. }
  assert (Hk : exists q, map g l = map (fun kv : str * res elem => (VStr (fst kv), snd kv)) q).
  { clear - Hl. induction l as [|[key v] l IH]; [exists []; reflexivity|]. destruct IH as [q Hq]; [intros k' v' Hin; apply (Hl k' v'); right; exact Hin|].
    destruct (Hl key v (or_introl eq_refl)) as [s ->]. exists ((s, snd (g (VStr s, v))) :: q). cbn [map]. rewrite Hq. reflexivity. }
  destruct Hk as [q Hq]. rewrite Hq. unfold sorted_items. rewrite keyed_strs. cbn [bind]. rewrite map_map. cbn [snd].
  assert (Hp := sort_items_perm q). set (rs := map (fun x : str * res elem => snd x) (fold_right insert_item [] q)).
  assert (Hin : forall r, In r rs <-> exists key v, In (key, v) l /\ r = snd (g (key, v))).
  { intros r. unfold rs. split.
    - intros Hr. apply in_map_iff in Hr. destruct Hr as [[s r'] [<- Hr]]. apply (Permutation_in _ (Permutation_sym Hp)) in Hr.
      assert (Hi : In (VStr s, r') (map g l)) by (rewrite Hq; apply in_map_iff; exists (s, r'); split; [reflexivity|exact Hr]).
      apply in_map_iff in Hi. destruct Hi as [[key v] [Hi Hkv]]. exists key, v. split; [exact Hkv|]. rewrite Hi. reflexivity.
    - intros [key [v [Hkv ->]]]. assert (Hi : In (key, snd (g (key, v))) (map g l)) by (apply in_map_iff; exists (key, v); split; [reflexivity|exact Hkv]).
      rewrite Hq in Hi. apply in_map_iff in Hi. destruct Hi as [[s r] [Hi Hsr]]. injection Hi as Hk Hr. apply in_map_iff. exists (s, r). split; [exact Hr|].
      apply (Permutation_in _ Hp), Hsr. }
  clearbody rs. clear Hq Hp q out.
  split; [|split; [|split]].
  - intros H1 [key [v [Hkv Hv]]]. rewrite (in_turn_fails (XPy AttributeError)); [reflexivity| |].
    + intros r Hr. apply Hin in Hr. destruct Hr as [k' [v' [Hkv' ->]]].
      destruct (Hg k' v' Hkv') as [[_ [_ [e He]]]|[[_ [_ He]]|[Hni _]]]; [left; exists e; exact He|right; exact He|exfalso; exact (Hni (H1 _ _ Hkv'))].
    + apply Hin. exists key, v. split; [exact Hkv|]. destruct (Hg key v Hkv) as [[_ [Hx _]]|[[_ [_ He]]|[Hni _]]]; [contradiction|symmetry; exact He|exfalso; exact (Hni (H1 _ _ Hkv))].
  - intros H1 [key [v [Hkv Hi]]]. rewrite (in_turn_fails (XPy KeyError)); [reflexivity| |].
    + intros r Hr. apply Hin in Hr. destruct Hr as [k' [v' [Hkv' ->]]].
      destruct (Hg k' v' Hkv') as [[_ [_ [e He]]]|[[_ [Hx _]]|[_ He]]]; [left; exists e; exact He|exfalso; exact (Hx (H1 _ _ Hkv'))|right; exact He].
    + apply Hin. exists key, v. split; [exact Hkv|]. destruct (Hg key v Hkv) as [[Hx _]|[[Hx _]|[_ He]]]; [contradiction|contradiction|symmetry; exact He].
  - intros H1. assert (Hok : exists es, in_turn rs = Ok es).
    { assert (Hall : forall r, In r rs -> exists e, r = Ok e).
      { intros r Hr. apply Hin in Hr. destruct Hr as [k' [v' [Hkv' ->]]]. destruct (H1 _ _ Hkv') as [Hv Hi].
        destruct (Hg k' v' Hkv') as [[_ [_ He]]|[[_ [Hx _]]|[Hx _]]]; [exact He|contradiction|contradiction]. }
      clear - Hall. induction rs as [|r rs IH]; [exists []; reflexivity|]. destruct (Hall r (or_introl eq_refl)) as [e ->].
      destruct IH as [es Hes]; [intros r' Hr'; apply Hall; right; exact Hr'|]. exists (e :: es). cbn [in_turn bind]. rewrite Hes. reflexivity. }
    destruct Hok as [es ->]. exists es. reflexivity.
  - intros e He key v Hkv. assert (Hall : exists e', snd (g (key, v)) = Ok e').
    { assert (Hr : In (snd (g (key, v))) rs) by (apply Hin; eauto). revert Hr. generalize (snd (g (key, v))). destruct (in_turn rs) as [es|] eqn:Hes; [|discriminate]. clear - Hes.
      revert es Hes. induction rs as [|r rs IH]; intros es Hes x Hx; [destruct Hx|]. cbn [in_turn] in Hes. destruct r as [a|]; [|discriminate]. cbn [bind] in Hes.
      destruct (in_turn rs) as [es'|]; [|discriminate]. destruct Hx as [<-|Hx]; [eauto|]. exact (IH es' eq_refl x Hx). }
    destruct Hall as [e' He']. destruct (Hg key v Hkv) as [[Hi [Hv _]]|[[_ [_ Hx]]|[_ Hx]]]; [auto|rewrite He' in Hx; discriminate|rewrite He' in Hx; discriminate].
Qed.

(** @example
Example C64_polymorphic_example :
  let on := Fld (p_named $"type") (KText None None None true) in
  let k := KStructure (SPoly on [(VStr $"a", [($"type", on)])]) true None in
  xml_element env0 (VDict false [(VStr $"type", VStr $"a")]) $"x" (Some k) = py KeyError
  /\ xml_element env0 (VDict false [(VStr $"a", VInt 1)]) $"x" (Some k) = py AttributeError
  /\ xml_element env0 (VDict false [(VStr $"a", VNone)]) $"x" (Some k) = Ok (Elem $"x" [] None [Elem $"a" [($"null", $"true")] None []]).
Proof. vm_compute. repeat split. Qed.
@end *)

(** @prop C64 A placeholder whose field has not been defined has no name: as schema, as item of a sequence
    that is not empty and as first value of a tuple that is not empty it is an AttributeError. *)
Lemma xml_undefined_refused :
  forall E i, e_undef E i = None ->
    (forall with_preamble v, xml_serialize E with_preamble v (FUndef i) = py AttributeError)
    /\ (forall x l mn mx u tag, xml_element E (VList (x :: l)) tag (Some (KSequence (FUndef i) mn mx u)) = py AttributeError)
    /\ (forall x l fs tag, xml_element E (VTuple (x :: l)) tag (Some (KTuple (FUndef i :: fs))) = py AttributeError).
Proof.
  intros E i Hi. unfold xml_serialize. repeat split; intros; cbn [xml_element truthy negb slot_tag]; rewrite Hi; reflexivity.
Qed.

(** @example
Example C64_undefined_example :
  e_undef env0 7%nat = None
  /\ xml_serialize env0 true (VInt 1) (FUndef 7%nat) = py AttributeError.
Proof. split; reflexivity. Qed.
@end *)
