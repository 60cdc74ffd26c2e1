(** Property theorems proved in CsvProofs.v (generated by tools/mkprops.py). *)
From Verif Require Import Spec Demo CsvSpec CsvProofs.

(** C63.  Rows written as CSV, with all columns or those named, are read back as the rows cut down
    to the scalar columns, without nulls and empty texts, provided there is a column and the cells
    are of one line and not too long. *)
Theorem C63_csv_roundtrip :
  forall E p item_p a b u st o l columns names r items,
    let schema := Fld p (KSequence (Fld item_p (KStructure (SPlain l) st o)) a b u) in
    asks columns l names -> scalar_names E l names r -> r <> [] -> NoDup r ->
    (forall name, In name r -> fits name) ->
    (forall o' d name k v, In (VDict o' d) items -> In name r -> scalar_column E l name k ->
       sget name d = Some v -> cell_value E k v) ->
    (forall v, In v items -> exists o' d, v = VDict o' d) ->
    exists t, csv_serialize E columns [] (VList items) schema = Ok t
      /\ csv_unserialize E t schema
         = Ok (VList (map (fun v => match v with VDict _ d => VDict false (left_of r d) | v => v end) items)).
Proof. exact csv_roundtrip. Qed.
Print Assumptions C63_csv_roundtrip.

Definition l63 : list (str * field) :=
  [($"name", Fld p0 (KText None None None false)); ($"age", Fld p0 (KInteger None None));
   ($"tags", Fld p0 (KSequence (Fld p0 (KText None None None false)) None None false)); ($"ok", Fld p0 KBoolean)].
Definition s63 := Fld p0 (KSequence (Fld p0 (KStructure (SPlain l63) true None)) None None false).
Definition q : str := [34%N].
Definition crlf : str := [13%N; 10%N].
Definition i63 := [VDict false [(VStr $"name", VStr (q ++ $"A, B" ++ q)); (VStr $"age", VInt (-3)); (VStr $"tags", VList []); (VStr $"ok", VBool false)];
                   VDict false [(VStr $"name", VStr []); (VStr $"age", VNone)]].
Example C63_example :
  exists t, csv_serialize env0 VNone [] (VList i63) s63 = Ok t
  /\ t = q ++ $"age" ++ q ++ $"," ++ q ++ $"name" ++ q ++ $"," ++ q ++ $"ok" ++ q ++ crlf
         ++ q ++ $"-3" ++ q ++ $"," ++ q ++ q ++ q ++ $"A, B" ++ q ++ q ++ q ++ $"," ++ q ++ $"false" ++ q ++ crlf
         ++ q ++ q ++ $"," ++ q ++ q ++ $"," ++ q ++ q ++ crlf
  /\ csv_unserialize env0 t s63
     = Ok (VList [VDict false [(VStr $"age", VInt (-3)); (VStr $"name", VStr (q ++ $"A, B" ++ q)); (VStr $"ok", VBool false)]; VDict false []]).
Proof. eexists. split; [vm_compute; reflexivity|]. split; vm_compute; reflexivity. Qed.
Example C63_meets :
  asks VNone l63 [$"age"; $"name"; $"ok"; $"tags"]
  /\ scalar_names env0 l63 [$"age"; $"name"; $"ok"; $"tags"] [$"age"; $"name"; $"ok"]
  /\ NoDup [$"age"; $"name"; $"ok"]
  /\ (forall name, In name [$"age"; $"name"; $"ok"] -> fits name)
  /\ (forall o' d name k v, In (VDict o' d) i63 -> In name [$"age"; $"name"; $"ok"] -> scalar_column env0 l63 name k ->
       sget name d = Some v -> cell_value env0 k v).
Proof.
  assert (Hf : forall s, In s [$"age"; $"name"; $"ok"; q ++ $"A, B" ++ q; []] -> fits s).
  { intros s Hs. split; [|split].
    - intros [a [b ->]]. assert (Hin : In 13%N (a ++ 13%N :: 10%N :: b)) by (apply in_or_app; right; left; reflexivity).
      cbn [In] in Hs. repeat destruct Hs as [He|Hs]; try contradiction; rewrite <- He in Hin; vm_compute in Hin; intuition discriminate.
    - intros Hin. cbn [In] in Hs. repeat destruct Hs as [He|Hs]; try contradiction; rewrite <- He in Hin; vm_compute in Hin; intuition discriminate.
    - cbn [In] in Hs. repeat destruct Hs as [He|Hs]; try contradiction; rewrite <- He; vm_compute; discriminate. }
  split; [left; split; reflexivity|]. split.
  { eapply names_keep; [eexists; repeat split; reflexivity|]. eapply names_keep; [eexists; repeat split; reflexivity|].
    eapply names_keep; [eexists; repeat split; reflexivity|]. eapply names_structural; try reflexivity. apply names_nil. }
  split; [repeat constructor; cbn; intuition discriminate|].
  split; [intros name Hn; apply Hf; cbn [In] in *; tauto|].
  intros o' d name k v Hd Hn [f [H1 [H2 _]]] Hg. cbn [In i63] in Hd. destruct Hd as [[= <- <-]|[[= <- <-]|[]]];
    cbn [In] in Hn; destruct Hn as [<-|[<-|[<-|[]]]]; vm_compute in H1; injection H1 as <-; injection H2 as <-; vm_compute in Hg; try discriminate; injection Hg as <-;
    constructor; first [apply Hf; cbn [In]; tauto | vm_compute; discriminate | vm_compute; intuition discriminate].
Qed.

(** C63.  A text whose header names a column that is not a scalar field of the items is refused,
    whatever rows follow. *)
Theorem C63_csv_unknown_column :
  forall E p item_p a b u st o l header rows name,
    let schema := Fld p (KSequence (Fld item_p (KStructure (SPlain l) st o)) a b u) in
    In name header ->
    (aget name l = None \/ exists f k, aget name l = Some f /\ kind_at E f = Some k /\ kind_structural k = true) ->
    (forall c, In c header -> fits c) ->
    (forall c f, In c header -> aget c l = Some f -> kind_at E f <> None) ->
    (forall row, In row rows -> row <> [] /\ forall s, In s row -> fits s) ->
    csv_unserialize E (concat (map csv_row (header :: rows))) schema = py ValueError.
Proof. exact csv_unknown_column. Qed.
Print Assumptions C63_csv_unknown_column.

Example C63_unknown : csv_unserialize env0 (concat (map csv_row [[$"age"; $"tags"]; [$"1"; $"x"]])) s63 = py ValueError.
Proof. vm_compute. reflexivity. Qed.

(** C63.  Only lists (or tuples) can be written, and only with a schema that is a sequence of
    structures. *)
Theorem C63_csv_refuses :
  forall E columns value schema,
    (match value with VList _ | VTuple _ => False | _ => True end ->
     csv_serialize E columns [] value schema = py ValueError)
    /\ ((forall p item_p a b u d st o, schema <> Fld p (KSequence (Fld item_p (KStructure d st o)) a b u)) ->
        (forall n, schema <> FUndef n) -> (forall p n a b u, schema <> Fld p (KSequence (FUndef n) a b u)) ->
        csv_serialize E columns [] value schema = py ValueError
        /\ forall t, csv_unserialize E t schema = py TypeError).
Proof. exact csv_refuses. Qed.
Print Assumptions C63_csv_refuses.

Example C63_refuses_example : csv_serialize env0 VNone [] (VDict false []) s63 = py ValueError
  /\ csv_unserialize env0 $"a" (Fld p0 KBoolean) = py TypeError.
Proof. split; reflexivity. Qed.
Example C63_line_ends : (* a line end inside a cell is lost *)
  (do t <- csv_serialize env0 VNone [] (VList [VDict false [(VStr $"name", VStr ($"a" ++ crlf ++ $"b"))]]) s63; csv_unserialize env0 t s63)
  = Ok (VList [VDict false [(VStr $"name", VStr $"ab")]]).
Proof. vm_compute. reflexivity. Qed.

(** C63.  Any rows of cells under a header of different scalar columns: if each row has a meaning
    (cells beyond the header are ignored, empty ones dropped) these are what is read; the first row that
    is too short raises IndexError, the first with a cell that is no number ValueError. *)
Theorem C63_csv_reads_exactly :
  forall E p item_p a b u st o l header rows,
    let schema := Fld p (KSequence (Fld item_p (KStructure (SPlain l) st o)) a b u) in
    header <> [] -> NoDup header ->
    (forall c, In c header -> fits c /\ exists k, scalar_column E l c k) ->
    (forall row, In row rows -> row <> [] /\ forall s, In s row -> fits s) ->
    (forall items, Forall2 (row_means E l header) rows items ->
       csv_unserialize E (concat (map csv_row (header :: rows))) schema = Ok (VList (map (VDict false) items)))
    /\ (forall good bad rest x, rows = good ++ bad :: rest ->
          (forall row, In row good -> exists item, row_means E l header row item) -> row_fails E l header bad x ->
          csv_unserialize E (concat (map csv_row (header :: rows))) schema = py x).
Proof. exact csv_reads_exactly. Qed.
Print Assumptions C63_csv_reads_exactly.

Example C63_rows_example :
  csv_unserialize env0 (concat (map csv_row [[$"age"; $"name"]; [$"7"; []; $"ignored"]; [$"8"; $"x"]])) s63
    = Ok (VList [VDict false [(VStr $"age", VInt 7)]; VDict false [(VStr $"age", VInt 8); (VStr $"name", VStr $"x")]])
  /\ csv_unserialize env0 (concat (map csv_row [[$"age"; $"name"]; [$"7"; $"x"]; [$"8"]])) s63 = py IndexError
  /\ csv_unserialize env0 (concat (map csv_row [[$"age"; $"name"]; [$"old"; $"x"]; [$"8"]])) s63 = py ValueError
  /\ row_means env0 l63 [$"age"; $"name"] [$"7"; []; $"ignored"] [(VStr $"age", VInt 7)]
  /\ row_fails env0 l63 [$"age"; $"name"] [$"8"] IndexError.
Proof.
  split; [vm_compute; reflexivity|]. split; [vm_compute; reflexivity|]. split; [vm_compute; reflexivity|].
  assert (Hk : scalar_column env0 l63 $"age" (KInteger None None)) by (eexists; repeat split; reflexivity).
  split.
  - eapply row_cell; [discriminate|exact Hk|constructor; vm_compute; reflexivity|]. apply row_empty, row_end.
  - eapply row_short with (before := [$"age"]) (after := []); [reflexivity|reflexivity|].
    eapply row_cell; [discriminate|exact Hk|constructor; vm_compute; reflexivity|]. apply row_end.
Qed.

(** C63.  A text with a NUL character anywhere is never read, whatever else is in it. *)
Theorem C63_csv_refuses_nul :
  forall E t schema r, In 0%N t -> csv_unserialize E t schema <> Ok r.
Proof. exact csv_refuses_nul. Qed.
Print Assumptions C63_csv_refuses_nul.

Example C63_nul_example : csv_unserialize env0 (csv_row [$"age"] ++ csv_row [$"1"] ++ [0%N]) s63 = py (OtherError 0).
Proof. vm_compute. reflexivity. Qed.

(** C63.  Line ends within cells do not survive: reading takes them out of the cells, so that what
    is read is what would be read had they been written without. *)
Theorem C63_csv_line_ends_lost :
  forall E rows rows' schema,
    rows <> [] -> (forall row, In row rows -> row <> [] /\ forall s, In s row -> ~ In 0%N s) ->
    Forall2 (Forall2 unbroken) rows rows' -> (forall row s, In row rows' -> In s row -> fits s) ->
    csv_unserialize E (concat (map csv_row rows)) schema = csv_unserialize E (concat (map csv_row rows')) schema.
Proof. exact csv_line_ends_lost. Qed.
Print Assumptions C63_csv_line_ends_lost.

Example C63_line_ends_example :
  unbroken ($"a" ++ [13%N; 10%N] ++ $"b") $"ab"
  /\ csv_unserialize env0 (concat (map csv_row [[$"name"]; [$"a" ++ [13%N; 10%N] ++ $"b"]])) s63
     = Ok (VList [VDict false [(VStr $"name", VStr $"ab")]]).
Proof.
  split; [|vm_compute; reflexivity]. apply unbroken_char; [discriminate|]. apply unbroken_end. apply unbroken_char; [discriminate|]. apply unbroken_nil.
Qed.

(** C63.  The closing quote at the very end may be missing: a text that breaks off within its last
    cell is read as if the cell were complete. *)
Theorem C63_csv_unclosed :
  forall E rows row before schema,
    (forall r, In r (rows ++ [row]) -> r <> [] /\ forall s, In s r -> fits s) ->
    csv_row row = before ++ [34%N; 13%N; 10%N] -> (forall x c, before = x ++ [c] -> c <> 13%N /\ c <> 10%N) ->
    csv_unserialize E (concat (map csv_row rows) ++ before) schema
    = csv_unserialize E (concat (map csv_row (rows ++ [row]))) schema.
Proof. exact csv_unclosed. Qed.
Print Assumptions C63_csv_unclosed.

Example C63_unclosed_example :
  let before := csv_row [$"name"; $"age"] ++ $"""x"",""17" in
  csv_unserialize env0 before s63 = Ok (VList [VDict false [(VStr $"name", VStr $"x"); (VStr $"age", VInt 17)]])
  /\ csv_unserialize env0 (before ++ [34%N]) s63 = csv_unserialize env0 before s63.
Proof. vm_compute. split; reflexivity. Qed.
