(** * The CSV format (C63). *)
(* @imports Spec Demo CsvSpec *)
From Coq Require Import ZifyBool ZifyN ZifyNat Permutation.
From Verif Require Import PyBaseFacts Spec Demo ProcessFacts NumFacts StructFacts NumProofs StProofs CsvSpec.

(** ** Rows *)

Lemma quoted s rest f fs :
  ~ In 0%N s -> (N.of_nat (length f + length s) <= field_limit)%N ->
  read_line (doubled s ++ 34%N :: rest) {| r_state := InQuoted; r_field := f; r_fields := fs |}
  = read_line rest {| r_state := QuoteInQuoted; r_field := rev s ++ f; r_fields := fs |}.
Proof.
  revert f. induction s as [|c s IH]; intros f H0 Hl.
  - reflexivity.
  - assert (Hc : (c =? 0)%N = false) by (apply N.eqb_neq; intros ->; apply H0; left; reflexivity).
    cbn [length] in Hl. cbn [doubled rev].
    assert (Hlim : (field_limit <=? N.of_nat (length f))%N = false) by (unfold field_limit in *; lia).
    assert (Hs : ~ In 0%N s) by (intros H; apply H0; right; exact H).
    specialize (IH (c :: f) Hs). cbn [length] in IH. rewrite <- app_assoc. cbn [app]. rewrite <- IH by lia.
    destruct (N.eqb_spec c 34) as [->|Hn]; cbn [app read_line].
    + cbn [N.eqb Pos.eqb read_char r_state bind]. unfold add_char, to_state. cbn [r_field r_fields r_state bind N.eqb Pos.eqb read_char]. unfold add_char. cbn [r_field r_fields]. rewrite Hlim. reflexivity.
    + rewrite Hc. unfold read_char at 1. cbn [r_state]. apply N.eqb_neq in Hn. rewrite Hn. unfold add_char. cbn [r_field r_fields]. rewrite Hlim. reflexivity.
Qed.

Definition short (s : str) : Prop := ~ In 0%N s /\ (N.of_nat (length s) <= field_limit)%N.

Lemma read_row_from cells st fs :
  st = StartRecord \/ st = StartField -> cells <> [] -> (forall s, In s cells -> short s) ->
  read_line (join [44%N] (map csv_cell cells)) {| r_state := st; r_field := []; r_fields := fs |}
  = Ok {| r_state := StartRecord; r_field := []; r_fields := fs ++ cells |}.
Proof.
  revert st fs. induction cells as [|s cells IH]; intros st fs Hst Hne Hs; [congruence|].
  destruct (Hs s (or_introl eq_refl)) as [H0 Hl].
  assert (Hstart : forall rest, read_line (csv_cell s ++ rest) {| r_state := st; r_field := []; r_fields := fs |}
    = read_line rest {| r_state := QuoteInQuoted; r_field := rev s; r_fields := fs |}).
  { intros rest. unfold csv_cell. cbn [app]. rewrite <- app_assoc. cbn [app read_line N.eqb Pos.eqb].
    assert (Ho : read_char (Some 34%N) {| r_state := st; r_field := []; r_fields := fs |} = Ok {| r_state := InQuoted; r_field := []; r_fields := fs |})
      by (destruct Hst as [-> | ->]; reflexivity).
    rewrite Ho. cbn [bind]. rewrite quoted; [rewrite app_nil_r; reflexivity|exact H0|cbn [length]; lia]. }
  destruct cells as [|s2 cells].
  - cbn [map join]. rewrite <- (app_nil_r (csv_cell s)), Hstart. cbn [read_line read_char r_state]. unfold save. cbn [r_field r_fields].
    rewrite rev_involutive. reflexivity.
  - cbn [map]. rewrite join_cons by discriminate. rewrite Hstart. cbn [app read_line N.eqb Pos.eqb read_char r_state bind]. unfold save. cbn [r_field r_fields].
    rewrite rev_involutive. change (csv_cell s2 :: map csv_cell cells) with (map csv_cell (s2 :: cells)).
    rewrite IH; [rewrite <- app_assoc; reflexivity|right; reflexivity|discriminate|]. intros t Ht. apply Hs. right. exact Ht.
Qed.

Lemma read_rows_ok rows :
  (forall row, In row rows -> row <> [] /\ forall s, In s row -> short s) ->
  read_rows (map (fun row => join [44%N] (map csv_cell row)) rows) fresh = (rows, Ok tt).
Proof.
  induction rows as [|row rows IH]; intros H; [reflexivity|]. cbn [map read_rows].
  destruct (H row (or_introl eq_refl)) as [H1 H2]. unfold fresh at 1. rewrite read_row_from by auto. cbn [r_state r_fields app].
  rewrite IH by (intros r Hr; apply H; right; exact Hr). reflexivity.
Qed.

(** ** Lines *)

Lemma one_line_tail c s : one_line (c :: s) -> one_line s.
Proof. intros H [a [b ->]]. apply H. exists (c :: a), b. reflexivity. Qed.

Lemma one_line_cons c s : one_line s -> (c <> 13%N \/ match s with 10%N :: _ => False | _ => True end) -> one_line (c :: s).
Proof.
  intros H Hc [a [b He]]. destruct a as [|x a].
  - injection He as -> ->. destruct Hc; [congruence|contradiction].
  - injection He as -> ->. apply H. exists a, b. reflexivity.
Qed.

Lemma one_line_head c s : one_line (c :: s) -> c <> 13%N \/ match s with 10%N :: _ => False | _ => True end.
Proof.
  intros H. destruct (N.eq_dec c 13) as [->|Hn]; [right|left; exact Hn]. destruct s as [|d s]; [exact I|].
  destruct (N.eq_dec d 10) as [->|Hd]; [exfalso; apply H; exists [], s; reflexivity|].
  destruct d as [|p]; [exact I|]. repeat (destruct p as [p|p|]; try exact I; try (exfalso; congruence)).
Qed.

Lemma split_line l rest : one_line l -> split_crlf (l ++ 13%N :: 10%N :: rest) = l :: split_crlf rest.
Proof.
  induction l as [|c l IH]; intros H; [reflexivity|]. cbn [app].
  assert (Hs := one_line_tail _ _ H). assert (Hh := one_line_head _ _ H).
  destruct l as [|d l].
  - cbn [app split_crlf]. rewrite Bool.andb_false_r. cbn [N.eqb Pos.eqb andb].  reflexivity.
  - cbn [app] in *. cbn [split_crlf].
    assert (Hcd : (c =? 13)%N && (d =? 10)%N = false).
    { destruct (N.eqb_spec c 13) as [->|]; [|reflexivity]. destruct (N.eqb_spec d 10) as [->|]; [|reflexivity]. destruct Hh; [congruence|contradiction]. }
    rewrite Hcd. specialize (IH Hs). cbn [split_crlf] in IH. rewrite IH. reflexivity.
Qed.

Lemma split_one l : one_line l -> split_crlf l = [l].
Proof.
  induction l as [|c l IH]; intros H; [reflexivity|]. cbn [split_crlf]. destruct l as [|d l]; [reflexivity|].
  assert (Hs := one_line_tail _ _ H). assert (Hh := one_line_head _ _ H).
  assert (Hcd : (c =? 13)%N && (d =? 10)%N = false).
  { destruct (N.eqb_spec c 13) as [->|]; [|reflexivity]. destruct (N.eqb_spec d 10) as [->|]; [|reflexivity]. destruct Hh; [congruence|contradiction]. }
  rewrite Hcd, (IH Hs). reflexivity.
Qed.

Lemma split_lines ls : ls <> [] -> (forall l, In l ls -> one_line l) -> split_crlf (join [13%N; 10%N] ls) = ls.
Proof.
  induction ls as [|l ls IH]; intros Hne H; [congruence|]. destruct ls as [|l2 ls].
  - apply split_one. apply H. left. reflexivity.
  - rewrite join_cons by discriminate. cbn [app]. rewrite split_line by (apply H; left; reflexivity). rewrite IH; [reflexivity|discriminate|].
    intros x Hx. apply H. right. exact Hx.
Qed.

Lemma doubled_one_line s rest : one_line s -> one_line (34%N :: rest) -> one_line (doubled s ++ 34%N :: rest).
Proof.
  intros H Hr. induction s as [|c s IH]; [exact Hr|]. assert (Hs := IH (one_line_tail _ _ H)). assert (Hh := one_line_head _ _ H). cbn [doubled].
  destruct (N.eqb_spec c 34) as [->|Hn]; cbn [app].
  - apply one_line_cons; [apply one_line_cons; [exact Hs|left; discriminate]|left; discriminate].
  - apply one_line_cons; [exact Hs|]. destruct Hh as [Hh|Hh]; [left; exact Hh|right]. destruct s as [|d s]; [exact I|]. cbn [doubled].
    destruct (N.eqb_spec d 34) as [->|Hd]; [exact I|]. cbn [app]. exact Hh.
Qed.

Lemma cell_one_line s rest : one_line s -> one_line rest -> one_line (csv_cell s ++ rest).
Proof.
  intros Hs Hr. unfold csv_cell. cbn [app]. rewrite <- app_assoc. cbn [app]. apply one_line_cons; [|left; discriminate].
  apply doubled_one_line; [exact Hs|]. apply one_line_cons; [exact Hr|left; discriminate].
Qed.

Lemma one_line_nil : one_line [].
Proof. intros [a [b H]]. destruct a; discriminate. Qed.

Lemma row_one_line cells : (forall s, In s cells -> one_line s) -> one_line (join [44%N] (map csv_cell cells)).
Proof.
  induction cells as [|s cells IH]; intros H; [apply one_line_nil|]. destruct cells as [|s2 cells].
  - cbn [map join]. rewrite <- (app_nil_r (csv_cell s)). apply cell_one_line; [apply H; left; reflexivity|apply one_line_nil].
  - cbn [map]. rewrite join_cons by discriminate. apply cell_one_line; [apply H; left; reflexivity|]. cbn [app].
    apply one_line_cons; [|left; discriminate]. apply IH. intros x Hx. apply H. right. exact Hx.
Qed.

Lemma rstrip_tail p x c t : p c = false -> forallb p t = true -> rstrip p (x ++ c :: t) = x ++ [c].
Proof.
  intros Hc Ht. assert (Hall : rstrip p t = []).
  { induction t as [|d t IH]; [reflexivity|]. cbn [forallb] in Ht. apply Bool.andb_true_iff in Ht. destruct Ht as [H1 H2]. cbn [rstrip]. rewrite IH, H1 by exact H2. reflexivity. }
  induction x as [|d x IH]; cbn [app rstrip]; [rewrite Hall, Hc; reflexivity|]. rewrite IH. destruct x; reflexivity.
Qed.

Lemma row_ends cells : cells <> [] -> exists x, join [44%N] (map csv_cell cells) = x ++ [34%N].
Proof.
  induction cells as [|s cells IH]; [congruence|]. intros _. destruct cells as [|s2 cells].
  - exists (34%N :: doubled s). reflexivity.
  - destruct IH as [x Hx]; [discriminate|]. cbn [map]. rewrite join_cons by discriminate. cbn [map] in Hx. rewrite Hx. eexists (csv_cell s ++ [44%N] ++ x). rewrite <- !app_assoc. reflexivity.
Qed.

Lemma row_starts cells : cells <> [] -> exists x, join [44%N] (map csv_cell cells) = 34%N :: x.
Proof.
  destruct cells as [|s [|s2 cells]]; [congruence| |]; intros _.
  - eexists. reflexivity.
  - cbn [map]. rewrite join_cons by discriminate. eexists. reflexivity.
Qed.

Lemma text_lines rows : rows <> [] -> (forall row, In row rows -> row <> []) ->
  strip is_crlf (concat (map csv_row rows)) = join [13%N; 10%N] (map (fun row => join [44%N] (map csv_cell row)) rows).
Proof.
  intros Hne Hrows.
  assert (Hc : concat (map csv_row rows) = join [13%N; 10%N] (map (fun row => join [44%N] (map csv_cell row)) rows) ++ [13%N; 10%N]).
  { clear Hrows. induction rows as [|row rows IH]; [congruence|]. destruct rows as [|row2 rows].
    - cbn [map concat join]. unfold csv_row. rewrite app_nil_r. reflexivity.
    - cbn [map]. rewrite join_cons by discriminate. cbn [concat]. cbn [map concat] in IH. rewrite IH by discriminate. unfold csv_row.
      rewrite <- !app_assoc. reflexivity. }
  rewrite Hc. set (text := join [13%N; 10%N] (map (fun row => join [44%N] (map csv_cell row)) rows)) in *.
  assert (Hend : exists x, text = x ++ [34%N]).
  { unfold text. clear Hc text. induction rows as [|row rows IH]; [congruence|]. destruct rows as [|row2 rows].
    - cbn [map join]. apply row_ends, Hrows. left. reflexivity.
    - destruct IH as [x Hx]; [discriminate|intros r Hr; apply Hrows; right; exact Hr|]. cbn [map]. rewrite join_cons by discriminate. cbn [map] in Hx.
      rewrite Hx. eexists. rewrite !app_assoc. reflexivity. }
  assert (Hstart : exists x, text = 34%N :: x).
  { unfold text. destruct rows as [|row [|row2 rows]]; [congruence| |].
    - cbn [map join]. apply row_starts, Hrows. left. reflexivity.
    - cbn [map]. rewrite join_cons by discriminate. destruct (row_starts row) as [x Hx]; [apply Hrows; left; reflexivity|]. rewrite Hx. eexists. reflexivity. }
  clearbody text. destruct Hend as [x Hx]. destruct Hstart as [y Hy].
  unfold strip. assert (Hl : lstrip is_crlf (text ++ [13%N; 10%N]) = text ++ [13%N; 10%N]) by (rewrite Hy; reflexivity).
  rewrite Hl, Hx, <- app_assoc. cbn [app]. apply rstrip_tail; reflexivity.
Qed.

(** ** Columns *)

Lemma scalar_column_field E l name k : scalar_column E l name k -> column_field E (SPlain l) name = Ok (Some k).
Proof. intros [f [H1 [H2 H3]]]. cbn [column_field]. unfold get. rewrite H1, H2, H3. reflexivity. Qed.

Definition column_kinds (E : env) (l : list (str * field)) (cells : list (str * kind)) : Prop :=
  forall name k, In (name, k) cells -> scalar_column E l name k.

Lemma written_columns_ok E l names r : scalar_names E l names r ->
  exists cells, written_columns E (SPlain l) names = Ok cells /\ map fst cells = r /\ column_kinds E l cells.
Proof.
  induction 1 as [|name k names r Hk _ IH|name names r Ha _ IH|name f k names r Ha Hf Hk _ IH].
  - exists []. split; [reflexivity|]. split; [reflexivity|intros ? ? []].
  - destruct IH as [cells [H1 [H2 H3]]]. exists ((name, k) :: cells). cbn [written_columns]. rewrite (scalar_column_field _ _ _ _ Hk), H1. cbn [bind].
    split; [reflexivity|]. split; [cbn [map fst]; rewrite H2; reflexivity|]. intros n' k' [[= <- <-]|Hin]; [exact Hk|exact (H3 _ _ Hin)].
  - destruct IH as [cells [H1 [H2 H3]]]. exists cells. cbn [written_columns column_field]. unfold get. rewrite Ha. cbn [bind]. rewrite H1. auto.
  - destruct IH as [cells [H1 [H2 H3]]]. exists cells. cbn [written_columns column_field]. unfold get. rewrite Ha, Hf, Hk. cbn [bind]. rewrite H1. auto.
Qed.

Lemma read_columns_ok E l cells : column_kinds E l cells -> read_columns E (SPlain l) (map fst cells) = Ok cells.
Proof.
  induction cells as [|[name k] cells IH]; intros H; [reflexivity|]. cbn [map fst read_columns].
  rewrite (scalar_column_field E l name k) by (apply H; left; reflexivity). cbn [bind].
  rewrite IH; [reflexivity|]. intros n' k' Hin. apply H. right. exact Hin.
Qed.

(** ** Cells *)

Definition survives (v : option val) : option val :=
  match v with None | Some VNone | Some (VStr []) => None | Some v => Some v end.

Lemma Z_text_fits z : (N.of_nat (length (Z_text z)) <= 131072)%N -> fits (Z_text z).
Proof.
  intros Hl. split; [|split; [|exact Hl]].
  - intros [a [b H]]. assert (Hin : In 13%N (Z_text z)) by (rewrite H; apply in_app_iff; right; left; reflexivity). apply Z_text_chars in Hin. lia.
  - intros Hin. apply Z_text_chars in Hin. lia.
Qed.

Lemma fits_word s : forallb (fun c => negb (is_crlf c) && negb (c =? 0)%N) s = true -> (N.of_nat (length s) <= 131072)%N -> fits s.
Proof.
  rewrite forallb_forall. intros H Hl. split; [|split; [|exact Hl]].
  - intros [a [b ->]]. specialize (H 13%N). cbn in H. assert (Hx : false = true); [apply H; apply in_app_iff; right; left; reflexivity|discriminate].
  - intros Hin. specialize (H _ Hin). discriminate.
Qed.

Lemma cell_text_fits E k v : cell_value E k v -> fits (cell_text E k (Some v)).
Proof.
  intros H. inversion H as [k0|b|mn mx z Hz|mn mx x Hx Hf Hne|k0 s Hk Hs]; subst.
  - apply fits_word; vm_compute; congruence.
  - destruct b; apply fits_word; vm_compute; congruence.
  - apply Z_text_fits, Hz.
  - exact Hf.
  - cbn [cell_text]. assert (Hb : str_eqb (kind_type k) $"boolean" = false) by (apply str_eqb_neq; intros He; apply Hk; left; congruence).
    rewrite Hb. exact Hs.
Qed.

Lemma convert_cell_ok E k v : cell_value E k v ->
  match survives (Some v) with
  | None => cell_text E k (Some v) = []
  | Some w => cell_text E k (Some v) <> [] /\ convert_cell E k (cell_text E k (Some v)) = Ok w
  end.
Proof.
  intros H. inversion H as [k0|b|mn mx z Hz|mn mx x Hx Hf Hne|k0 s Hk Hs]; subst; cbn [survives].
  - reflexivity.
  - destruct b; (split; [discriminate|reflexivity]).
  - split; [apply Z_text_nonempty|]. cbn [cell_text text_of kind_type]. unfold convert_cell. cbn [kind_type].
    change (str_eqb $"integer" $"boolean") with false. change (str_eqb $"integer" $"float") with false. cbn iota.
    change (str_eqb $"integer" $"integer") with true. cbn iota. rewrite (parse_int_text _ _ z); [reflexivity|apply integer_str_is_text].
  - split; [exact Hne|]. unfold convert_cell, cell_text. cbn [kind_type text_of]. change (str_eqb $"float" $"boolean") with false.
    change (str_eqb $"float" $"float") with true. cbn iota. rewrite Hx. reflexivity.
  - assert (Hw : forall w, In w [$"boolean"; $"integer"; $"float"] -> str_eqb (kind_type k) w = false).
    { intros w Hw. apply str_eqb_neq. intros He. apply Hk. rewrite He. exact Hw. }
    unfold cell_text, convert_cell. rewrite !Hw by (cbn [In]; tauto). cbn [text_of]. destruct s; [reflexivity|]. split; [discriminate|reflexivity].
Qed.

Lemma read_cells_ok E (cells : list (str * kind)) item acc :
  NoDup (map fst cells) -> (forall name, In name (map fst cells) -> ~ In name (map fst acc)) ->
  (forall name k v, In (name, k) cells -> sget name item = Some v -> cell_value E k v) ->
  exists out, read_cells E cells (map (fun c => cell_text E (snd c) (sget (fst c) item)) cells) acc = Ok (acc ++ out)
    /\ map (fun kv => (VStr (fst kv), snd kv)) out = left_of (map fst cells) item.
Proof.
  revert acc. induction cells as [|[name k] cells IH]; intros acc Hnd Hacc Hv; [exists []; rewrite app_nil_r; split; reflexivity|].
  cbn [map fst snd] in *. inversion Hnd as [|? ? Hn Hnd']; subst. cbn [read_cells].
  assert (Hcell : match survives (sget name item) with
                  | None => cell_text E k (sget name item) = []
                  | Some w => cell_text E k (sget name item) <> [] /\ convert_cell E k (cell_text E k (sget name item)) = Ok w end).
  { destruct (sget name item) as [v|] eqn:Hg; [|reflexivity]. apply convert_cell_ok. apply (Hv name k v); [left; reflexivity|exact Hg]. }
  unfold left_of. cbn [flat_map]. fold (left_of (map fst cells) item).
  assert (Hsv : (match sget name item with
                        | None | Some VNone | Some (VStr []) => []
                        | Some v => [(VStr name, v)]
                        end : list (val * val)) = match survives (sget name item) with Some v => [(VStr name, v)] | None => [] end).
  { destruct (sget name item) as [v|]; [|reflexivity]. destruct v as [ | | | |s| | | | | | | | | | | | ]; try reflexivity. destruct s; reflexivity. }
  rewrite Hsv. destruct (survives (sget name item)) as [w|].
  - destruct Hcell as [Hne Hc]. destruct (cell_text E k (sget name item)) as [|c s] eqn:Ht; [congruence|]. rewrite Hc. cbn [bind].
    rewrite aset_notin by (apply Hacc; left; reflexivity).
    destruct (IH (acc ++ [(name, w)])) as [out [H1 H2]]; [exact Hnd'| |intros n' k' v' Hin; apply Hv; right; exact Hin|].
    { intros n' Hin Hin'. rewrite map_app in Hin'. apply in_app_iff in Hin'. destruct Hin' as [Hin'|[<-|[]]]; [|contradiction].
      exact (Hacc n' (or_intror Hin) Hin'). }
    exists ((name, w) :: out). rewrite H1, <- app_assoc. split; [reflexivity|]. cbn [map fst snd app]. rewrite H2. reflexivity.
  - rewrite Hcell. destruct (IH acc) as [out [H1 H2]]; [exact Hnd'|intros n' Hin; apply Hacc; right; exact Hin|intros n' k' v' Hin; apply Hv; right; exact Hin|].
    exists out. split; [exact H1|exact H2].
Qed.

Definition csv_image (E : env) (cells : list (str * kind)) (d : list (val * val)) : list str :=
  map (fun c => cell_text E (snd c) (sget (fst c) d)) cells.

(** @prop C63 Rows written as CSV, with all columns or those named, are read back as the rows cut down
    to the scalar columns, without nulls and empty texts, provided there is a column and the cells
    are of one line and not too long. *)
Lemma csv_roundtrip :
  forall E p item_p a b u st o l columns names r items,
    let schema := Fld p (KSequence (Fld item_p (KStructure (SPlain l) st o)) a b u) in
    asks columns l names -> scalar_names E l names r -> r <> [] -> NoDup r ->
    (forall name, In name r -> fits name) ->
    (forall o' d name k v, In (VDict o' d) items -> In name r -> scalar_column E l name k ->
       sget name d = Some v -> cell_value E k v) ->
    (forall v, In v items -> exists o' d, v = VDict o' d) ->
    exists t, csv_serialize E columns [] (VList items) schema = Ok t
      /\ csv_unserialize E t schema
         = Ok (VList (map (fun v => match v with VDict _ d => VDict false (left_of r d) | v => v end) items)).
Proof.
  intros E p item_p a b u st o l columns names r items schema Hask Hnames Hne Hnd Hfit Hcells Hitems.
  destruct (written_columns_ok E l names r Hnames) as [cells [W1 [W2 W3]]].
  assert (Hcv : forall o' d name k v, In (VDict o' d) items -> In (name, k) cells -> sget name d = Some v -> cell_value E k v).
  { intros o' d name k v Hin Hc Hg. apply (Hcells o' d name k v Hin); [rewrite <- W2; change name with (fst (name, k)); apply in_map, Hc|apply W3, Hc|exact Hg]. }
  assert (Hrows : exists rows, written_rows E cells items = Ok rows
    /\ Forall2 (fun v row => exists o' d, v = VDict o' d /\ row = csv_image E cells d) items rows).
  { clear Hcells Hcv. induction items as [|v items IH]; [exists []; split; [reflexivity|constructor]|].
    destruct IH as [rows [H1 H2]]; [intros w Hw; apply Hitems; right; exact Hw|].
    destruct (Hitems v (or_introl eq_refl)) as [o' [d ->]]. exists (csv_image E cells d :: rows). cbn [written_rows]. rewrite H1. split; [reflexivity|].
    constructor; [eauto|exact H2]. }
  destruct Hrows as [rows [R1 R2]].
  assert (Hcn : cells <> []) by (intros ->; cbn in W2; congruence).
  assert (Hall : forall row, In row (map fst cells :: rows) -> row <> [] /\ forall s, In s row -> fits s).
  { intros row [<-|Hin].
    - rewrite W2. split; [exact Hne|exact Hfit].
    - assert (Hx : exists o' d, In (VDict o' d) items /\ row = csv_image E cells d).
      { clear - R2 Hin. induction R2 as [|v row' items rows [o' [d [-> ->]]] _ IH]; [destruct Hin|]. destruct Hin as [<-|Hin]; [exists o', d; split; [left; reflexivity|reflexivity]|].
        destruct (IH Hin) as [o2 [d2 [H1 H2]]]. exists o2, d2. split; [right; exact H1|exact H2]. }
      destruct Hx as [o' [d [Hd ->]]]. unfold csv_image. split; [destruct cells; [congruence|discriminate]|]. intros s Hs. apply in_map_iff in Hs. destruct Hs as [[name k] [<- Hc]].
      cbn [fst snd]. destruct (sget name d) as [v|] eqn:Hg; [apply cell_text_fits; exact (Hcv o' d name k v Hd Hc Hg)|apply fits_word; vm_compute; congruence]. }
  exists (concat (map csv_row (map fst cells :: rows))). split.
  - unfold csv_serialize. cbn [follow bind fst snd]. unfold row_structure. unfold schema. cbn [kind_at bind].
    assert (Hch : chosen_columns columns (SPlain l) = Ok names).
    { destruct Hask as [[-> ->]|[-> Hnn]]; [reflexivity|]. destruct names as [|n0 names]; [congruence|]. unfold chosen_columns. cbn [map].
      change (VStr n0 :: map VStr names) with (map VStr (n0 :: names)).
      assert (Hf : forallb (fun v => match v with VStr _ => true | _ => false end) (map VStr (n0 :: names)) = true)
        by (rewrite forallb_forall; intros v Hv; apply in_map_iff in Hv; destruct Hv as [s [<- _]]; reflexivity).
      rewrite Hf, map_map, map_id. reflexivity. }
    rewrite Hch. cbn [bind]. rewrite W1. cbn [bind]. rewrite R1. reflexivity.
  - unfold csv_unserialize, row_structure, schema. cbn [kind_at bind].
    rewrite text_lines; [|discriminate|intros row Hr; apply (Hall row Hr)].
    rewrite split_lines; [|discriminate|].
    2:{ intros x Hx. apply in_map_iff in Hx. destruct Hx as [row [<- Hr]]. apply row_one_line. intros s Hs. apply (proj2 (Hall row Hr) s Hs). }
    rewrite read_rows_ok.
    2:{ intros row Hr. destruct (Hall row Hr) as [H1 H2]. split; [exact H1|]. intros s Hs. destruct (H2 s Hs) as [_ [H3 H4]]. split; [exact H3|exact H4]. }
    rewrite (read_columns_ok E l cells W3). cbn [bind].
    assert (Hitemsok : read_items E cells rows = Ok (map (fun v => match v with VDict _ d => VDict false (left_of r d) | v => v end) items)).
    { clear R1 Hall Hcells Hitems. induction R2 as [|v row items rows [o' [d [-> ->]]] _ IH]; [reflexivity|]. cbn [read_items map].
      destruct (read_cells_ok E cells d []) as [out [O1 O2]].
      - rewrite W2. exact Hnd.
      - intros name _ [].
      - intros name k v Hc Hg. exact (Hcv o' d name k v (or_introl eq_refl) Hc Hg).
      - unfold csv_image. rewrite O1. cbn [bind app]. rewrite IH; [|intros o2 d2 name k v Hin; apply (Hcv o2 d2); right; exact Hin]. cbn [bind].
        rewrite O2, W2. reflexivity. }
    rewrite Hitemsok. reflexivity.
Qed.

(** @example
Definition l63 : list (str * field) :=
  [($"name", Fld p0 (KText None None None false)); ($"age", Fld p0 (KInteger None None));
   ($"tags", Fld p0 (KSequence (Fld p0 (KText None None None false)) None None false)); ($"ok", Fld p0 KBoolean)].
Definition s63 := Fld p0 (KSequence (Fld p0 (KStructure (SPlain l63) true None)) None None false).
Definition q : str := [34%N].
Definition crlf : str := [13%N; 10%N].
Definition i63 := [VDict false [(VStr $"name", VStr (q ++ $"A, B" ++ q)); (VStr $"age", VInt (-3)); (VStr $"tags", VList []); (VStr $"ok", VBool false)];
                   VDict false [(VStr $"name", VStr []); (VStr $"age", VNone)]].
Example C63_example :
  exists t, csv_serialize env0 VNone [] (VList i63) s63 = Ok t
  /\ t = q ++ $"age" ++ q ++ $"," ++ q ++ $"name" ++ q ++ $"," ++ q ++ $"ok" ++ q ++ crlf
         ++ q ++ $"-3" ++ q ++ $"," ++ q ++ q ++ q ++ $"A, B" ++ q ++ q ++ q ++ $"," ++ q ++ $"false" ++ q ++ crlf
         ++ q ++ q ++ $"," ++ q ++ q ++ $"," ++ q ++ q ++ crlf
  /\ csv_unserialize env0 t s63
     = Ok (VList [VDict false [(VStr $"age", VInt (-3)); (VStr $"name", VStr (q ++ $"A, B" ++ q)); (VStr $"ok", VBool false)]; VDict false []]).
Proof. eexists. split; [vm_compute; reflexivity|]. split; vm_compute; reflexivity. Qed.
Example C63_meets :
  asks VNone l63 [$"age"; $"name"; $"ok"; $"tags"]
  /\ scalar_names env0 l63 [$"age"; $"name"; $"ok"; $"tags"] [$"age"; $"name"; $"ok"]
  /\ NoDup [$"age"; $"name"; $"ok"]
  /\ (forall name, In name [$"age"; $"name"; $"ok"] -> fits name)
  /\ (forall o' d name k v, In (VDict o' d) i63 -> In name [$"age"; $"name"; $"ok"] -> scalar_column env0 l63 name k ->
       sget name d = Some v -> cell_value env0 k v).
Proof.
  assert (Hf : forall s, In s [$"age"; $"name"; $"ok"; q ++ $"A, B" ++ q; []] -> fits s).
  { intros s Hs. split; [|split].
    - intros [a [b ->]]. assert (Hin : In 13%N (a ++ 13%N :: 10%N :: b)) by (apply in_or_app; right; left; reflexivity).
      cbn [In] in Hs. repeat destruct Hs as [He|Hs]; try contradiction; rewrite <- He in Hin; vm_compute in Hin; intuition discriminate.
    - intros Hin. cbn [In] in Hs. repeat destruct Hs as [He|Hs]; try contradiction; rewrite <- He in Hin; vm_compute in Hin; intuition discriminate.
    - cbn [In] in Hs. repeat destruct Hs as [He|Hs]; try contradiction; rewrite <- He; vm_compute; discriminate. }
  split; [left; split; reflexivity|]. split.
  { eapply names_keep; [eexists; repeat split; reflexivity|]. eapply names_keep; [eexists; repeat split; reflexivity|].
    eapply names_keep; [eexists; repeat split; reflexivity|]. eapply names_structural; try reflexivity. apply names_nil. }
  split; [repeat constructor; cbn; intuition discriminate|].
  split; [intros name Hn; apply Hf; cbn [In] in *; tauto|].
  intros o' d name k v Hd Hn [f [H1 [H2 _]]] Hg. cbn [In i63] in Hd. destruct Hd as [[= <- <-]|[[= <- <-]|[]]];
    cbn [In] in Hn; destruct Hn as [<-|[<-|[<-|[]]]]; vm_compute in H1; injection H1 as <-; injection H2 as <-; vm_compute in Hg; try discriminate; injection Hg as <-;
    constructor; first [apply Hf; cbn [In]; tauto | vm_compute; discriminate | vm_compute; intuition discriminate].
Qed.
@end *)

Lemma read_columns_unknown E l columns name :
  In name columns -> column_field E (SPlain l) name = Ok None ->
  (forall c, In c columns -> exists k, column_field E (SPlain l) c = Ok k) ->
  read_columns E (SPlain l) columns = py ValueError.
Proof.
  intros Hin Hn Hall. induction columns as [|c columns IH]; [destruct Hin|]. cbn [read_columns].
  destruct (Hall c (or_introl eq_refl)) as [k Hk]. rewrite Hk. cbn [bind]. destruct k as [k|]; [|reflexivity].
  destruct Hin as [->|Hin]; [congruence|]. rewrite IH; [reflexivity|exact Hin|]. intros d Hd. apply Hall. right. exact Hd.
Qed.

(** @prop C63 A text whose header names a column that is not a scalar field of the items is refused,
    whatever rows follow. *)
Lemma csv_unknown_column :
  forall E p item_p a b u st o l header rows name,
    let schema := Fld p (KSequence (Fld item_p (KStructure (SPlain l) st o)) a b u) in
    In name header ->
    (aget name l = None \/ exists f k, aget name l = Some f /\ kind_at E f = Some k /\ kind_structural k = true) ->
    (forall c, In c header -> fits c) ->
    (forall c f, In c header -> aget c l = Some f -> kind_at E f <> None) ->
    (forall row, In row rows -> row <> [] /\ forall s, In s row -> fits s) ->
    csv_unserialize E (concat (map csv_row (header :: rows))) schema = py ValueError.
Proof.
  intros E p item_p a b u st o l header rows name schema Hin Hname Hfit Hdef Hrows.
  assert (Hall : forall row, In row (header :: rows) -> row <> [] /\ forall s, In s row -> fits s).
  { intros row [<-|Hr]; [|exact (Hrows row Hr)]. split; [intros ->; destruct Hin|exact Hfit]. }
  unfold csv_unserialize, row_structure, schema. cbn [kind_at bind].
  rewrite text_lines; [|discriminate|intros row Hr; apply (Hall row Hr)].
  rewrite split_lines; [|discriminate|].
  2:{ intros x Hx. apply in_map_iff in Hx. destruct Hx as [row [<- Hr]]. apply row_one_line. intros s Hs. apply (proj2 (Hall row Hr) s Hs). }
  rewrite read_rows_ok.
  2:{ intros row Hr. destruct (Hall row Hr) as [H1 H2]. split; [exact H1|]. intros s Hs. destruct (H2 s Hs) as [_ [H3 H4]]. split; [exact H3|exact H4]. }
  rewrite (read_columns_unknown E l header name); [reflexivity|exact Hin| |].
  - cbn [column_field]. unfold get. destruct Hname as [-> |[f [k [-> [-> ->]]]]]; reflexivity.
  - intros c Hc. cbn [column_field]. unfold get. destruct (aget c l) as [f|] eqn:Hg; [|eauto]. specialize (Hdef c f Hc Hg). destruct (kind_at E f); [eauto|congruence].
Qed.

(** @example
Example C63_unknown : csv_unserialize env0 (concat (map csv_row [[$"age"; $"tags"]; [$"1"; $"x"]])) s63 = py ValueError.
Proof. vm_compute. reflexivity. Qed.
@end *)

(** @prop C63 Only lists (or tuples) can be written, and only with a schema that is a sequence of
    structures. *)
Lemma csv_refuses :
  forall E columns value schema,
    (match value with VList _ | VTuple _ => False | _ => True end ->
     csv_serialize E columns [] value schema = py ValueError)
    /\ ((forall p item_p a b u d st o, schema <> Fld p (KSequence (Fld item_p (KStructure d st o)) a b u)) ->
        (forall n, schema <> FUndef n) -> (forall p n a b u, schema <> Fld p (KSequence (FUndef n) a b u)) ->
        csv_serialize E columns [] value schema = py ValueError
        /\ forall t, csv_unserialize E t schema = py TypeError).
Proof.
  intros E columns value schema. split.
  - intros H. unfold csv_serialize. cbn [follow bind fst]. destruct value; try contradiction; reflexivity.
  - intros H1 H2 H3. assert (Hr : forall wrong, row_structure E wrong schema = py wrong).
    { intros wrong. unfold row_structure. destruct schema as [n|p k]; [exfalso; eapply H2; reflexivity|]. cbn [kind_at]. destruct k; try reflexivity.
      match goal with |- context [kind_at E ?i] => destruct i as [n|ip ik] end; [exfalso; eapply H3; reflexivity|]. cbn [kind_at]. destruct ik; try reflexivity.
      exfalso. eapply H1. reflexivity. }
    split.
    + unfold csv_serialize. cbn [follow bind fst snd]. rewrite Hr. destruct value; reflexivity.
    + intros t. unfold csv_unserialize. rewrite Hr. reflexivity.
Qed.

(** @example
Example C63_refuses_example : csv_serialize env0 VNone [] (VDict false []) s63 = py ValueError
  /\ csv_unserialize env0 $"a" (Fld p0 KBoolean) = py TypeError.
Proof. split; reflexivity. Qed.
Example C63_line_ends : (* a line end inside a cell is lost *)
  (do t <- csv_serialize env0 VNone [] (VList [VDict false [(VStr $"name", VStr ($"a" ++ crlf ++ $"b"))]]) s63; csv_unserialize env0 t s63)
  = Ok (VList [VDict false [(VStr $"name", VStr $"ab")]]).
Proof. vm_compute. reflexivity. Qed.
@end *)

(** ** Reading any rows *)

Lemma convert_means E k s v : cell_means E k s v -> convert_cell E k s = Ok v.
Proof.
  intros H. inversion H as [|s0 Hs|mn mx s0 z Hz|mn mx s0 x Hx|k0 s0 Hk]; subst; unfold convert_cell; cbn [kind_type].
  - reflexivity.
  - rewrite (str_eqb_refl $"boolean"). rewrite (proj2 (str_eqb_neq s $"true") Hs). reflexivity.
  - change (str_eqb $"integer" $"boolean") with false. change (str_eqb $"integer" $"float") with false.
    rewrite (str_eqb_refl $"integer"), Hz. reflexivity.
  - change (str_eqb $"float" $"boolean") with false. rewrite (str_eqb_refl $"float"), Hx. reflexivity.
  - assert (Hw : forall w, In w [$"boolean"; $"integer"; $"float"] -> str_eqb (kind_type k) w = false).
    { intros w Hw. apply str_eqb_neq. intros He. apply Hk. rewrite He. exact Hw. }
    rewrite !Hw by (cbn [In]; tauto). reflexivity.
Qed.

Lemma convert_senseless E k s : (forall v, ~ cell_means E k s v) -> convert_cell E k s = py ValueError.
Proof.
  intros H. unfold convert_cell.
  destruct (str_eqb (kind_type k) $"boolean") eqn:Hb.
  { exfalso. apply str_eqb_eq in Hb. destruct k; try discriminate Hb.
    destruct (str_eqb_spec s $"true") as [->|Hs]; [apply (H (VBool true)); constructor|apply (H (VBool false)); constructor; exact Hs]. }
  destruct (str_eqb (kind_type k) $"float") eqn:Hf.
  { apply str_eqb_eq in Hf. destruct k; try discriminate Hf. destruct (parse_float (e_udigit E) s) as [x|] eqn:Hx; [|reflexivity].
    exfalso. apply (H (VFloat x)). constructor. exact Hx. }
  destruct (str_eqb (kind_type k) $"integer") eqn:Hi.
  { apply str_eqb_eq in Hi. destruct k; try discriminate Hi. destruct (parse_int (e_udigit E) s) as [x|] eqn:Hx; [|reflexivity].
    exfalso. apply (H (VInt x)). constructor. exact Hx. }
  exfalso. apply (H (VStr s)). constructor. cbn [In]. intros [Hx|[Hx|[Hx|[]]]]; symmetry in Hx; rewrite Hx, str_eqb_refl in *; discriminate.
Qed.

Lemma scalar_column_fun E l c k k' : scalar_column E l c k -> scalar_column E l c k' -> k = k'.
Proof. intros [f [H1 [H2 _]]] [f' [H1' [H2' _]]]. congruence. Qed.

Lemma NoDup_prefix {A} (a b : list A) : NoDup (a ++ b) -> NoDup a.
Proof.
  induction a as [|x a IH]; intros H; [constructor|]. inversion H as [|? ? Hn H']; subst.
  constructor; [intros Hin; apply Hn, in_or_app; left; exact Hin|exact (IH H')].
Qed.

(** The cells of a prefix of the header are read. *)
Lemma read_cells_means E l header row item cells rest row' acc :
  row_means E l header row item -> column_kinds E l (cells ++ rest) -> map fst cells = header -> NoDup (map fst cells) ->
  (forall c, In c (map fst cells) -> ~ In c (map fst acc)) -> length row = length header \/ rest = [] /\ row' = [] ->
  exists out, map (fun kv => (VStr (fst kv), snd kv)) out = item /\ (forall c, In c (map fst out) -> In c (map fst cells))
    /\ read_cells E (cells ++ rest) (row ++ row') acc = read_cells E rest row' (acc ++ out).
Proof.
  intros H. revert cells acc. induction H as [row|c header row item H IH|c k header s row v item Hs Hk Hm H IH]; intros cells acc Hcells Hh Hnd Hacc Hlen.
  - destruct cells; [|discriminate]. exists []. split; [reflexivity|]. split; [intros ? []|]. rewrite app_nil_r. cbn [app].
    destruct Hlen as [Hlen|[-> ->]]; [destruct row; [reflexivity|discriminate]|reflexivity].
  - destruct cells as [|[c' k'] cells]; [discriminate|]. injection Hh as Hc Hh. cbn [map fst] in *. inversion Hnd as [|? ? Hn Hnd']; subst.
    destruct (IH cells acc) as [out [H1 [H2 H3]]]; [intros n' k'' Hin; apply Hcells; right; exact Hin|reflexivity|exact Hnd'|intros x Hx; apply Hacc; right; exact Hx| |].
    { destruct Hlen as [Hlen|Hlen]; [left; cbn [length] in Hlen; lia|right; exact Hlen]. }
    exists out. split; [exact H1|]. split; [intros x Hx; right; exact (H2 x Hx)|]. exact H3.
  - destruct cells as [|[c' k'] cells]; [discriminate|]. injection Hh as Hc Hh. cbn [map fst] in *. inversion Hnd as [|? ? Hn Hnd']; subst.
    assert (Hkk : k' = k) by (eapply scalar_column_fun; [apply Hcells; left; reflexivity|exact Hk]). subst k'.
    destruct (IH cells (acc ++ [(c, v)])) as [out [H1 [H2 H3]]]; [intros n' k'' Hin; apply Hcells; right; exact Hin|reflexivity|exact Hnd'| | |].
    { intros x Hx Hin. rewrite map_app in Hin. apply in_app_iff in Hin. destruct Hin as [Hin|[<-|[]]]; [|contradiction]. exact (Hacc x (or_intror Hx) Hin). }
    { destruct Hlen as [Hlen|Hlen]; [left; cbn [length] in Hlen; lia|right; exact Hlen]. }
    exists ((c, v) :: out). split; [cbn [map fst snd]; rewrite H1; reflexivity|]. split.
    { intros x [<-|Hx]; [left; reflexivity|right; exact (H2 x Hx)]. }
    cbn [app read_cells]. rewrite (convert_means _ _ _ _ Hm). cbn [bind]. rewrite aset_notin by (apply Hacc; left; reflexivity).
    destruct s; [congruence|]. rewrite H3, <- app_assoc. reflexivity.
Qed.

Lemma read_row_means E l cells row item :
  row_means E l (map fst cells) row item -> column_kinds E l cells -> NoDup (map fst cells) ->
  exists out, map (fun kv => (VStr (fst kv), snd kv)) out = item /\ read_cells E cells row [] = Ok out.
Proof.
  intros H Hc Hnd. destruct (read_cells_means E l _ _ _ cells [] [] [] H) as [out [H1 [_ H3]]];
    [rewrite app_nil_r; exact Hc|reflexivity|exact Hnd|intros ? ? []|right; split; reflexivity|].
  rewrite !app_nil_r in H3. exists out. split; [exact H1|]. rewrite H3. reflexivity.
Qed.

Lemma read_row_fails E l cells row x :
  row_fails E l (map fst cells) row x -> column_kinds E l cells -> NoDup (map fst cells) ->
  read_cells E cells row [] = py x.
Proof.
  intros H Hc Hnd. destruct H as [before c after item Hh Hlen Hm|before c after cs s cs' k item Hh Hr Hlen Hm Hs Hk Hno];
    apply map_eq_app in Hh; destruct Hh as [cb [ca [-> [Hb Ha]]]]; (destruct ca as [|[c' k'] ca]; [discriminate|]); injection Ha as -> Ha.
  - destruct (read_cells_means E l _ _ _ cb ((c, k') :: ca) [] [] Hm Hc Hb) as [out [_ [_ H3]]]; [|intros ? ? []|left; exact Hlen|].
    { rewrite map_app in Hnd. exact (NoDup_prefix _ _ Hnd). }
    rewrite app_nil_r in H3. rewrite H3. reflexivity.
  - subst row. assert (Hkk : k' = k) by (eapply scalar_column_fun; [apply Hc, in_or_app; right; left; reflexivity|exact Hk]). subst k'.
    destruct (read_cells_means E l _ _ _ cb ((c, k) :: ca) (s :: cs') [] Hm Hc Hb) as [out [_ [_ H3]]]; [|intros ? ? []|left; exact Hlen|].
    { rewrite map_app in Hnd. exact (NoDup_prefix _ _ Hnd). }
    rewrite H3. cbn [read_cells]. destruct s; [congruence|]. rewrite (convert_senseless _ _ _ Hno). reflexivity.
Qed.

Lemma columns_exist E l header :
  (forall c, In c header -> exists k, scalar_column E l c k) -> exists cells, map fst cells = header /\ column_kinds E l cells.
Proof.
  induction header as [|c header IH]; intros H; [exists []; split; [reflexivity|intros ? ? []]|].
  destruct (H c (or_introl eq_refl)) as [k Hk]. destruct IH as [cells [H1 H2]]; [intros d Hd; apply H; right; exact Hd|].
  exists ((c, k) :: cells). split; [cbn [map fst]; rewrite H1; reflexivity|]. intros n' k' [[= <- <-]|Hin]; [exact Hk|exact (H2 _ _ Hin)].
Qed.

Lemma read_text E p item_p a b u st o l header rows cells :
  header <> [] -> (forall c, In c header -> fits c) -> map fst cells = header -> column_kinds E l cells ->
  (forall row, In row rows -> row <> [] /\ forall s, In s row -> fits s) ->
  csv_unserialize E (concat (map csv_row (header :: rows))) (Fld p (KSequence (Fld item_p (KStructure (SPlain l) st o)) a b u))
  = do items <- read_items E cells rows; Ok (VList items).
Proof.
  intros Hne Hfit Hmap Hck Hrows.
  assert (Hall : forall row, In row (header :: rows) -> row <> [] /\ forall s, In s row -> fits s).
  { intros row [<-|Hr]; [split; [exact Hne|exact Hfit]|exact (Hrows row Hr)]. }
  unfold csv_unserialize, row_structure. cbn [kind_at bind].
  rewrite text_lines; [|discriminate|intros row Hr; apply (Hall row Hr)].
  rewrite split_lines; [|discriminate|].
  2:{ intros x Hx. apply in_map_iff in Hx. destruct Hx as [row [<- Hr]]. apply row_one_line. intros s Hs. apply (proj2 (Hall row Hr) s Hs). }
  rewrite read_rows_ok.
  2:{ intros row Hr. destruct (Hall row Hr) as [H1 H2]. split; [exact H1|]. intros s Hs. destruct (H2 s Hs) as [_ [H3 H4]]. split; [exact H3|exact H4]. }
  subst header. rewrite (read_columns_ok E l cells Hck). cbn [bind]. destruct (read_items E cells rows); reflexivity.
Qed.

(** @prop C63 Any rows of cells under a header of different scalar columns: if each row has a meaning
    (cells beyond the header are ignored, empty ones dropped) these are what is read; the first row that
    is too short raises IndexError, the first with a cell that is no number ValueError. *)
Lemma csv_reads_exactly :
  forall E p item_p a b u st o l header rows,
    let schema := Fld p (KSequence (Fld item_p (KStructure (SPlain l) st o)) a b u) in
    header <> [] -> NoDup header ->
    (forall c, In c header -> fits c /\ exists k, scalar_column E l c k) ->
    (forall row, In row rows -> row <> [] /\ forall s, In s row -> fits s) ->
    (forall items, Forall2 (row_means E l header) rows items ->
       csv_unserialize E (concat (map csv_row (header :: rows))) schema = Ok (VList (map (VDict false) items)))
    /\ (forall good bad rest x, rows = good ++ bad :: rest ->
          (forall row, In row good -> exists item, row_means E l header row item) -> row_fails E l header bad x ->
          csv_unserialize E (concat (map csv_row (header :: rows))) schema = py x).
Proof.
  intros E p item_p a b u st o l header rows schema Hne Hnd Hcols Hrows.
  destruct (columns_exist E l header) as [cells [Hmap Hck]]; [intros c Hc; apply (Hcols c Hc)|].
  unfold schema. rewrite (read_text E p item_p a b u st o l header rows cells Hne (fun c Hc => proj1 (Hcols c Hc)) Hmap Hck Hrows).
  clear Hrows Hcols Hne. subst header. split.
  - intros items H. assert (Hr : read_items E cells rows = Ok (map (VDict false) items)); [|rewrite Hr; reflexivity].
    induction H as [|row item rows items Hm _ IH]; [reflexivity|]. cbn [read_items map].
    destruct (read_row_means E l cells row item Hm Hck Hnd) as [out [H1 H2]]. rewrite H2. cbn [bind]. rewrite IH. cbn [bind]. rewrite H1. reflexivity.
  - intros good bad rest x -> Hgood Hbad. assert (Hr : read_items E cells (good ++ bad :: rest) = py x); [|rewrite Hr; reflexivity].
    induction good as [|row good IH]; cbn [app read_items].
    + rewrite (read_row_fails E l cells bad x Hbad Hck Hnd). reflexivity.
    + destruct (Hgood row (or_introl eq_refl)) as [item Hm]. destruct (read_row_means E l cells row item Hm Hck Hnd) as [out [H1 H2]].
      rewrite H2. cbn [bind]. rewrite IH by (intros r Hr; apply Hgood; right; exact Hr). reflexivity.
Qed.

(** @example
Example C63_rows_example :
  csv_unserialize env0 (concat (map csv_row [[$"age"; $"name"]; [$"7"; []; $"ignored"]; [$"8"; $"x"]])) s63
    = Ok (VList [VDict false [(VStr $"age", VInt 7)]; VDict false [(VStr $"age", VInt 8); (VStr $"name", VStr $"x")]])
  /\ csv_unserialize env0 (concat (map csv_row [[$"age"; $"name"]; [$"7"; $"x"]; [$"8"]])) s63 = py IndexError
  /\ csv_unserialize env0 (concat (map csv_row [[$"age"; $"name"]; [$"old"; $"x"]; [$"8"]])) s63 = py ValueError
  /\ row_means env0 l63 [$"age"; $"name"] [$"7"; []; $"ignored"] [(VStr $"age", VInt 7)]
  /\ row_fails env0 l63 [$"age"; $"name"] [$"8"] IndexError.
Proof.
  split; [vm_compute; reflexivity|]. split; [vm_compute; reflexivity|]. split; [vm_compute; reflexivity|].
  assert (Hk : scalar_column env0 l63 $"age" (KInteger None None)) by (eexists; repeat split; reflexivity).
  split.
  - eapply row_cell; [discriminate|exact Hk|constructor; vm_compute; reflexivity|]. apply row_empty, row_end.
  - eapply row_short with (before := [$"age"]) (after := []); [reflexivity|reflexivity|].
    eapply row_cell; [discriminate|exact Hk|constructor; vm_compute; reflexivity|]. apply row_end.
Qed.
@end *)

Lemma strip_keeps p c s : p c = false -> In c s -> In c (strip p s).
Proof.
  intros Hp Hin. unfold strip.
  assert (Hl : In c (lstrip p s)).
  { induction s as [|d s IH]; [destruct Hin|]. cbn [lstrip]. destruct (p d) eqn:Hd; [|exact Hin].
    destruct Hin as [->|Hin]; [congruence|exact (IH Hin)]. }
  revert Hl. generalize (lstrip p s). intros t Ht. induction t as [|d t IH]; [destruct Ht|]. cbn [rstrip].
  destruct Ht as [->|Ht].
  - destruct (rstrip p t); [rewrite Hp|]; left; reflexivity.
  - specialize (IH Ht). destruct (rstrip p t); [destruct IH|]. right. exact IH.
Qed.

Lemma split_cons x y s :
  split_crlf (x :: y :: s) = if (x =? 13)%N && (y =? 10)%N then [] :: split_crlf s
                             else match split_crlf (y :: s) with [] => [[x]] | h :: t => (x :: h) :: t end.
Proof. reflexivity. Qed.

Lemma split_keeps c s : is_crlf c = false -> In c s -> exists t, In t (split_crlf s) /\ In c t.
Proof.
  intros Hc. remember (length s) as m eqn:Hm. revert s Hm. induction m as [m IH] using lt_wf_ind. intros s -> Hin.
  destruct s as [|x s]; [destruct Hin|]. destruct s as [|y s]; [exists [x]; split; [left; reflexivity|exact Hin]|].
  rewrite split_cons. destruct ((x =? 13)%N && (y =? 10)%N) eqn:Hxy.
  - apply andb_true_iff in Hxy. destruct Hxy as [H1 H2]. apply N.eqb_eq in H1, H2. subst x y.
    destruct Hin as [<-|[<-|Hin]]; [discriminate|discriminate|].
    destruct (IH (length s) ltac:(cbn [length]; lia) s eq_refl Hin) as [t [H1 H2]]. exists t. split; [right; exact H1|exact H2].
  - destruct Hin as [<-|Hin].
    + destruct (split_crlf (y :: s)) as [|h t]; [exists [x]|exists (x :: h)]; (split; [left; reflexivity|left; reflexivity]).
    + destruct (IH (length (y :: s)) ltac:(cbn [length]; lia) (y :: s) eq_refl Hin) as [t [H1 H2]].
      destruct (split_crlf (y :: s)) as [|h t']; [destruct H1|]. destruct H1 as [<-|H1].
      * exists (x :: h). split; [left; reflexivity|right; exact H2].
      * exists t. split; [right; exact H1|exact H2].
Qed.

Lemma read_line_nul s r : In 0%N s -> exists x, read_line s r = Raise x.
Proof.
  revert r. induction s as [|c s IH]; intros r Hin; [destruct Hin|]. cbn [read_line].
  destruct (N.eqb_spec c 0) as [->|Hc]; [eexists; reflexivity|]. destruct Hin as [Hx|Hin]; [contradiction (Hc Hx)|].
  destruct (read_char (Some c) r) as [r'|x]; cbn [bind]; [exact (IH r' Hin)|eauto].
Qed.

Lemma read_rows_nul lines r t : In t lines -> In 0%N t -> exists x, snd (read_rows lines r) = Raise x.
Proof.
  intros Hin Ht. revert r. induction lines as [|s lines IH]; intros r; [destruct Hin|]. cbn [read_rows].
  destruct Hin as [->|Hin].
  - destruct (read_line_nul t r Ht) as [x ->]. exists x. reflexivity.
  - destruct (read_line s r) as [r'|x]; [|exists x; reflexivity]. destruct (r_state r'); cbn [snd]; apply (IH Hin).
Qed.

(** @prop C63 A text with a NUL character anywhere is never read, whatever else is in it. *)
Lemma csv_refuses_nul :
  forall E t schema r, In 0%N t -> csv_unserialize E t schema <> Ok r.
Proof.
  intros E t schema r Hin H. unfold csv_unserialize in H. destruct (row_structure E TypeError schema) as [d|]; [|discriminate].
  cbn [bind] in H. destruct (split_keeps 0%N (strip is_crlf t) eq_refl (strip_keeps is_crlf 0%N t eq_refl Hin)) as [s [H1 H2]].
  destruct (read_rows_nul _ fresh s H1 H2) as [x Hx]. destruct (read_rows (split_crlf (strip is_crlf t)) fresh) as [[|columns rows] final]; cbn [snd] in Hx; subst final; [discriminate|].
  destruct (read_columns E d columns) as [cells|]; [|discriminate]. cbn [bind] in H. destruct (read_items E cells rows); discriminate.
Qed.

(** @example
Example C63_nul_example : csv_unserialize env0 (csv_row [$"age"] ++ csv_row [$"1"] ++ [0%N]) s63 = py (OtherError 0).
Proof. vm_compute. reflexivity. Qed.
@end *)

Lemma split_char c t r r' : c <> 0%N -> (c = 13%N -> forall s', t <> 10%N :: s') ->
  read_char (Some c) r = Ok r' -> read_rows (split_crlf (c :: t)) r = read_rows (split_crlf t) r'.
Proof.
  intros H0 Hc Hr. apply N.eqb_neq in H0.
  assert (Hs : exists h ls, split_crlf t = h :: ls /\ split_crlf (c :: t) = (c :: h) :: ls).
  { destruct t as [|d t]; [exists [], []; split; reflexivity|]. rewrite split_cons.
    assert (Hcd : (c =? 13)%N && (d =? 10)%N = false).
    { destruct (N.eqb_spec c 13) as [->|]; [|reflexivity]. destruct (N.eqb_spec d 10) as [->|]; [|reflexivity]. exfalso. exact (Hc eq_refl t eq_refl). }
    rewrite Hcd. destruct (split_crlf (d :: t)) as [|h ls] eqn:He.
    - exfalso. destruct t as [|e t]; [discriminate He|]. rewrite split_cons in He. destruct ((d =? 13)%N && (e =? 10)%N); [discriminate|].
      destruct (split_crlf (e :: t)); discriminate He.
    - exists h, ls. split; reflexivity. }
  destruct Hs as [h [ls [-> ->]]]. cbn [read_rows read_line]. rewrite H0, Hr. reflexivity.
Qed.

Lemma add_ok st c f fs s0 : (N.of_nat (S (length f)) <= field_limit)%N ->
  add_char st c {| r_state := s0; r_field := f; r_fields := fs |} = Ok {| r_state := st; r_field := c :: f; r_fields := fs |}.
Proof. intros H. unfold add_char. cbn [r_field r_fields]. assert (Hl : (field_limit <=? N.of_nat (length f))%N = false) by (unfold field_limit in *; lia). rewrite Hl. reflexivity. Qed.

Lemma inside s t : unbroken s t -> forall rest f fs,
  ~ In 0%N s -> (N.of_nat (length f + length t) <= field_limit)%N -> (exists rest', rest = 34%N :: rest') \/ rest = [] ->
  read_rows (split_crlf (doubled s ++ rest)) {| r_state := InQuoted; r_field := f; r_fields := fs |}
  = read_rows (split_crlf rest) {| r_state := InQuoted; r_field := rev t ++ f; r_fields := fs |}.
Proof.
  induction 1 as [|s t Hu IH|c s t Hc Hu IH]; intros rest f fs H0 Hl Hrest.
  - reflexivity.
  - cbn [doubled N.eqb Pos.eqb app]. rewrite split_cons. cbn [N.eqb Pos.eqb andb]. cbn [read_rows read_line read_char r_state].
    apply IH; [intros Hi; apply H0; right; right; exact Hi|exact Hl|exact Hrest].
  - cbn [length] in Hl. assert (Hs0 : ~ In 0%N s) by (intros Hi; apply H0; right; exact Hi).
    cbn [rev]. rewrite <- app_assoc. cbn [app]. rewrite <- (IH rest (c :: f) fs Hs0); [|cbn [length]; lia|exact Hrest].
    cbn [doubled]. destruct (N.eqb_spec c 34) as [->|Hn]; cbn [app].
    + rewrite (split_char 34 _ _ {| r_state := QuoteInQuoted; r_field := f; r_fields := fs |}); [|discriminate|discriminate|reflexivity].
      apply split_char; [discriminate|discriminate|]. cbn [read_char r_state N.eqb Pos.eqb]. apply add_ok. lia.
    + apply split_char.
      * intros ->. apply H0. left. reflexivity.
      * intros -> s' He. destruct s as [|d s]; cbn [doubled app] in He.
        { destruct Hrest as [[r' ->] | ->]; discriminate He. }
        destruct (N.eqb_spec d 34) as [->|]; cbn [app] in He; [discriminate He|]. injection He as -> He. exact (Hc eq_refl s eq_refl).
      * cbn [read_char r_state]. apply N.eqb_neq in Hn. rewrite Hn. apply add_ok. lia.
Qed.

Definition lead (cells : list str) : str := concat (map (fun c => csv_cell c ++ [44%N]) cells).

Lemma join_lead cells s : join [44%N] (map csv_cell (cells ++ [s])) = lead cells ++ csv_cell s.
Proof.
  induction cells as [|c cells IH]; [reflexivity|]. cbn [app map]. rewrite join_cons by (destruct cells; discriminate). rewrite IH.
  unfold lead. cbn [map concat]. rewrite <- !app_assoc. reflexivity.
Qed.

Definition cells_ok (cells cells' : list str) : Prop :=
  Forall2 unbroken cells cells' /\ (forall s, In s cells -> ~ In 0%N s) /\ forall s, In s cells' -> (N.of_nat (length s) <= field_limit)%N.

Lemma opened cells cells' s s' st fs rest :
  cells_ok (cells ++ [s]) (cells' ++ [s']) -> st = StartRecord \/ st = StartField -> (exists rest', rest = 34%N :: rest') \/ rest = [] ->
  read_rows (split_crlf (lead cells ++ 34%N :: doubled s ++ rest)) {| r_state := st; r_field := []; r_fields := fs |}
  = read_rows (split_crlf rest) {| r_state := InQuoted; r_field := rev s'; r_fields := fs ++ cells' |}.
Proof.
  revert cells' st fs. induction cells as [|c cells IH]; intros cells' st fs [Hu [H0 Hl]] Hst Hrest.
  - assert (Hx : cells' = [] /\ unbroken s s').
    { destruct cells' as [|a cells']; inversion Hu as [|x y xs ys Hh Ht]; subst; [auto|]. inversion Ht. destruct cells'; discriminate. }
    destruct Hx as [-> Hs]. cbn [app] in *. unfold lead. cbn [map concat app]. rewrite app_nil_r.
    rewrite (split_char 34 _ _ {| r_state := InQuoted; r_field := []; r_fields := fs |}); [|discriminate|discriminate|destruct Hst as [-> | ->]; reflexivity].
    rewrite (inside s s' Hs); [rewrite app_nil_r; reflexivity|apply H0; left; reflexivity| |exact Hrest].
    apply (Hl s'). left. reflexivity.
  - destruct cells' as [|c' cells'].
    { exfalso. inversion Hu as [|x y xs ys Hh Ht]; subst. inversion Ht. destruct cells; discriminate. }
    cbn [app] in *. inversion Hu as [|x y xs ys Hc Ht]; subst. unfold lead. cbn [map concat]. fold (lead cells).
    unfold csv_cell. rewrite <- !app_assoc. cbn [app]. rewrite <- !app_assoc. cbn [app].
    rewrite (split_char 34 _ _ {| r_state := InQuoted; r_field := []; r_fields := fs |}); [|discriminate|discriminate|destruct Hst as [-> | ->]; reflexivity].
    rewrite (inside c c' Hc); [|apply H0; left; reflexivity|apply (Hl c'); left; reflexivity|left; eauto]. rewrite app_nil_r.
    rewrite (split_char 34 _ _ {| r_state := QuoteInQuoted; r_field := rev c'; r_fields := fs |}); [|discriminate|discriminate|reflexivity].
    rewrite (split_char 44 _ _ {| r_state := StartField; r_field := []; r_fields := fs ++ [c'] |}); [|discriminate|discriminate|].
    2:{ cbn [read_char r_state N.eqb Pos.eqb]. unfold save. cbn [r_field r_fields]. rewrite rev_involutive. reflexivity. }
    rewrite (IH cells'); [rewrite <- app_assoc; reflexivity| |right; reflexivity|exact Hrest].
    split; [exact Ht|]. split; [intros t Hi; apply H0; right; exact Hi|intros t Hi; apply Hl; right; exact Hi].
Qed.

Lemma snoc {A} (l : list A) : l <> [] -> exists a x, l = a ++ [x].
Proof. intros H. destruct (exists_last H) as [a [x ->]]. eauto. Qed.

Lemma F2_snoc cells s row' : Forall2 unbroken (cells ++ [s]) row' -> exists cells' s', row' = cells' ++ [s'].
Proof. intros H. apply snoc. intros ->. inversion H. destruct cells; discriminate. Qed.

Lemma closed_rows rows rows' tail :
  Forall2 (fun row row' => row <> [] /\ cells_ok row row') rows rows' ->
  read_rows (split_crlf (concat (map csv_row rows) ++ tail)) fresh
  = (rows' ++ fst (read_rows (split_crlf tail) fresh), snd (read_rows (split_crlf tail) fresh)).
Proof.
  induction 1 as [|row row' rows rows' [Hne Hok] _ IH].
  - cbn [map concat app]. destruct (read_rows (split_crlf tail) fresh); reflexivity.
  - destruct (snoc row Hne) as [cells [s ->]]. destruct (F2_snoc _ _ _ (proj1 Hok)) as [cells' [s' ->]].
    cbn [map concat]. unfold csv_row at 1. change ($",") with [44%N]. rewrite join_lead. unfold csv_cell. rewrite <- !app_assoc. cbn [app]. rewrite <- !app_assoc. cbn [app].
    unfold fresh at 1. rewrite (opened cells cells' s s' _ _ _ Hok (or_introl eq_refl)) by (left; eauto). cbn [app].
    rewrite (split_char 34 _ _ {| r_state := QuoteInQuoted; r_field := rev s'; r_fields := cells' |}); [|discriminate|discriminate|reflexivity].
    rewrite split_cons. cbn [N.eqb Pos.eqb andb read_rows read_line read_char r_state]. unfold save. cbn [r_state r_fields r_field]. rewrite rev_involutive, IH.
    reflexivity.
Qed.

Lemma last_row row row' : row <> [] -> cells_ok row row' -> forall quote, quote = [] \/ quote = [34%N] ->
  exists before, join [44%N] (map csv_cell row) = before ++ [34%N]
    /\ read_rows (split_crlf (before ++ quote)) fresh = ([row'], Ok tt).
Proof.
  intros Hne Hok quote Hq. destruct (snoc row Hne) as [cells [s ->]]. destruct (F2_snoc _ _ _ (proj1 Hok)) as [cells' [s' ->]].
  exists (lead cells ++ 34%N :: doubled s). split; [rewrite join_lead; unfold csv_cell; rewrite <- app_assoc; reflexivity|].
  rewrite <- app_assoc. cbn [app]. unfold fresh. rewrite (opened cells cells' s s' _ _ _ Hok (or_introl eq_refl)).
  - destruct Hq as [-> | ->].
    + cbn [split_crlf read_rows read_line read_char r_state r_field r_fields app]. rewrite rev_involutive. reflexivity.
    + rewrite (split_char 34 _ _ {| r_state := QuoteInQuoted; r_field := rev s'; r_fields := cells' |}); [|discriminate|discriminate|reflexivity].
      cbn [split_crlf read_rows read_line read_char r_state r_field r_fields app fst snd]. unfold save. cbn [r_state r_fields r_field]. rewrite rev_involutive. reflexivity.
  - destruct Hq as [-> | ->]; [right; reflexivity|left; eauto].
Qed.

Lemma all_rows rows rows' : rows <> [] ->
  Forall2 (fun row row' => row <> [] /\ cells_ok row row') rows rows' ->
  read_rows (split_crlf (strip is_crlf (concat (map csv_row rows)))) fresh = (rows', Ok tt).
Proof.
  intros Hne H. rewrite text_lines; [|exact Hne|].
  2:{ intros row Hin. clear Hne. induction H as [|? ? ? ? [Hr _] _ IH]; [destruct Hin|]. destruct Hin as [<-|Hin]; auto. }
  destruct (snoc rows Hne) as [a [row ->]]. apply Forall2_app_inv_l in H. destruct H as [a' [b' [H1 [H2 ->]]]].
  inversion H2 as [|? row' ? ? [Hr Hok] Hn]; subst. inversion Hn; subst.
  assert (Hj : join [13%N; 10%N] (map (fun row => join [44%N] (map csv_cell row)) (a ++ [row])) = concat (map csv_row a) ++ join [44%N] (map csv_cell row)).
  { clear. induction a as [|x a IH]; [reflexivity|]. cbn [app map]. rewrite join_cons by (destruct a; discriminate). rewrite IH.
    cbn [concat]. unfold csv_row. rewrite <- !app_assoc. reflexivity. }
  rewrite Hj, (closed_rows _ _ _ H1). destruct (last_row row row' Hr Hok [34%N] (or_intror eq_refl)) as [before [-> Hb]]. rewrite Hb. reflexivity.
Qed.

Lemma unbroken_same s : one_line s -> unbroken s s.
Proof.
  induction s as [|c s IH]; intros H; constructor.
  - intros -> s' ->. apply H. exists [], s'. reflexivity.
  - apply IH. exact (one_line_tail _ _ H).
Qed.

Lemma fits_ok row : (forall s, In s row -> fits s) -> cells_ok row row.
Proof.
  intros H. split; [|split; intros s Hs; destruct (H s Hs) as [_ [H1 H2]]; assumption].
  induction row as [|s row IH]; constructor; [apply unbroken_same, (H s (or_introl eq_refl))|apply IH; intros t Ht; apply H; right; exact Ht].
Qed.

(** @prop C63 Line ends within cells do not survive: reading takes them out of the cells, so that what
    is read is what would be read had they been written without. *)
Lemma csv_line_ends_lost :
  forall E rows rows' schema,
    rows <> [] -> (forall row, In row rows -> row <> [] /\ forall s, In s row -> ~ In 0%N s) ->
    Forall2 (Forall2 unbroken) rows rows' -> (forall row s, In row rows' -> In s row -> fits s) ->
    csv_unserialize E (concat (map csv_row rows)) schema = csv_unserialize E (concat (map csv_row rows')) schema.
Proof.
  intros E rows rows' schema Hne Hrows Hu Hfit.
  assert (H1 : Forall2 (fun row row' => row <> [] /\ cells_ok row row') rows rows').
  { clear Hne. induction Hu as [|row row' rows rows' Hu _ IH]; constructor.
    - destruct (Hrows row (or_introl eq_refl)) as [Hr H0]. split; [exact Hr|]. split; [exact Hu|]. split; [exact H0|].
      intros s Hs. apply (Hfit row' s (or_introl eq_refl) Hs).
    - apply IH; [intros r Hr; apply Hrows; right; exact Hr|intros r s Hr; apply Hfit; right; exact Hr]. }
  assert (H2 : Forall2 (fun row row' => row <> [] /\ cells_ok row row') rows' rows').
  { clear Hne Hrows Hu. induction H1 as [|row row' rows rows' [Hr [Hu _]] _ IH]; constructor.
    - split; [intros ->; apply Hr; inversion Hu; reflexivity|]. apply fits_ok. intros s Hs. apply (Hfit row' s (or_introl eq_refl) Hs).
    - apply IH. intros r s Hi. apply Hfit. right. exact Hi. }
  unfold csv_unserialize. rewrite (all_rows rows rows' Hne H1). rewrite (all_rows rows' rows'); [reflexivity| |exact H2].
  intros ->. apply Hne. inversion Hu. reflexivity.
Qed.

(** @example
Example C63_line_ends_example :
  unbroken ($"a" ++ [13%N; 10%N] ++ $"b") $"ab"
  /\ csv_unserialize env0 (concat (map csv_row [[$"name"]; [$"a" ++ [13%N; 10%N] ++ $"b"]])) s63
     = Ok (VList [VDict false [(VStr $"name", VStr $"ab")]]).
Proof.
  split; [|vm_compute; reflexivity]. apply unbroken_char; [discriminate|]. apply unbroken_end. apply unbroken_char; [discriminate|]. apply unbroken_nil.
Qed.
@end *)

(** @prop C63 The closing quote at the very end may be missing: a text that breaks off within its last
    cell is read as if the cell were complete. *)
Lemma csv_unclosed :
  forall E rows row before schema,
    (forall r, In r (rows ++ [row]) -> r <> [] /\ forall s, In s r -> fits s) ->
    csv_row row = before ++ [34%N; 13%N; 10%N] -> (forall x c, before = x ++ [c] -> c <> 13%N /\ c <> 10%N) ->
    csv_unserialize E (concat (map csv_row rows) ++ before) schema
    = csv_unserialize E (concat (map csv_row (rows ++ [row]))) schema.
Proof.
  intros E rows row before schema Hall Hb Hend.
  assert (Hrow : forall r, In r (rows ++ [row]) -> r <> [] /\ cells_ok r r).
  { intros r Hr. destruct (Hall r Hr) as [H1 H2]. split; [exact H1|apply fits_ok, H2]. }
  assert (HF : forall l, (forall r, In r l -> r <> [] /\ cells_ok r r) -> Forall2 (fun row row' => row <> [] /\ cells_ok row row') l l).
  { intros l. induction l as [|r l IH]; intros H; constructor; [apply H; left; reflexivity|apply IH; intros x Hx; apply H; right; exact Hx]. }
  unfold csv_unserialize. rewrite (all_rows (rows ++ [row]) (rows ++ [row])); [|destruct rows; discriminate|apply HF, Hrow].
  assert (Hlast := Hrow row). destruct Hlast as [Hne Hok]; [apply in_app_iff; right; left; reflexivity|].
  destruct (last_row row row Hne Hok [] (or_introl eq_refl)) as [before' [H1 H2]]. rewrite app_nil_r in H2.
  assert (He : before' = before).
  { unfold csv_row in Hb. change ($",") with [44%N] in Hb. rewrite H1, <- app_assoc in Hb. cbn [app] in Hb. apply app_inv_tail in Hb. exact Hb. }
  subst before'.
  assert (Hs : strip is_crlf (concat (map csv_row rows) ++ before) = concat (map csv_row rows) ++ before).
  { assert (Hstart : exists x, concat (map csv_row rows) ++ before = 34%N :: x).
    { destruct rows as [|r rows].
      - cbn [map concat app]. destruct (row_starts row Hne) as [x Hx]. rewrite H1 in Hx. destruct before as [|c before]; [|exists before; injection Hx as -> _; reflexivity].
        exfalso. destruct (snoc row Hne) as [cells [s ->]]. rewrite join_lead in H1. apply (f_equal (@length N)) in H1. unfold csv_cell in H1.
        cbn [app length] in H1. rewrite app_length in H1. cbn [length] in H1. rewrite app_length in H1. cbn [length] in H1. lia.
      - destruct (row_starts r) as [x Hx]; [apply Hrow; left; reflexivity|]. cbn [map concat]. unfold csv_row at 1. change ($",") with [44%N]. rewrite Hx. eexists. reflexivity. }
    assert (Hlst : exists x c, before = x ++ [c] /\ is_crlf c = false).
    { destruct before as [|b before0] eqn:Eb.
      - exfalso. destruct (snoc row Hne) as [cells [s ->]]. rewrite join_lead in H1. apply (f_equal (@length N)) in H1. unfold csv_cell in H1.
        cbn [app length] in H1. rewrite app_length in H1. cbn [length] in H1. rewrite app_length in H1. cbn [length] in H1. lia.
      - destruct (snoc (b :: before0)) as [x [c Hx]]; [discriminate|]. exists x, c. split; [exact Hx|]. destruct (Hend x c Hx). unfold is_crlf. apply N.eqb_neq in H, H0. rewrite H, H0. reflexivity. }
    destruct Hstart as [y Hy]. destruct Hlst as [x [c [-> Hc]]]. unfold strip. rewrite Hy. cbn [lstrip]. change (is_crlf 34%N) with false. cbn iota. rewrite <- Hy.
    rewrite app_assoc. apply rstrip_tail; [exact Hc|reflexivity]. }
  rewrite Hs, (closed_rows rows rows before) by (apply HF; intros r Hr; apply Hrow, in_app_iff; left; exact Hr). rewrite H2. reflexivity.
Qed.

(** @example
Example C63_unclosed_example :
  let before := csv_row [$"name"; $"age"] ++ $"""x"",""17" in
  csv_unserialize env0 before s63 = Ok (VList [VDict false [(VStr $"name", VStr $"x"); (VStr $"age", VInt 17)]])
  /\ csv_unserialize env0 (before ++ [34%N]) s63 = csv_unserialize env0 before s63.
Proof. vm_compute. split; reflexivity. Qed.
@end *)
