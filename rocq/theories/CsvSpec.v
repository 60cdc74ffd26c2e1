(** * Specifications of the CSV format (C63). *)
From Verif Require Export Spec CsvText.

(** The text does not contain a line end (CR LF). *)
Definition one_line (s : str) : Prop := ~ exists a b, s = a ++ 13%N :: 10%N :: b.

(** A text that fits in a cell. *)
Definition fits (s : str) : Prop := one_line s /\ ~ In 0%N s /\ (N.of_nat (length s) <= 131072)%N.

(** The field of a column: not structural. *)
Definition scalar_column (E : env) (l : list (str * field)) (name : str) (k : kind) : Prop :=
  exists f, aget name l = Some f /\ kind_at E f = Some k /\ kind_structural k = false.

(** Values that survive in a column of a kind: booleans, integers and floats in columns of that type
    (floats as far as the text Python gives them is read back), texts elsewhere; null anywhere. *)
Inductive cell_value (E : env) : kind -> val -> Prop :=
| cell_null : forall k, cell_value E k VNone
| cell_boolean : forall b, cell_value E KBoolean (VBool b)
| cell_integer : forall mn mx z, (N.of_nat (length (Z_text z)) <= 131072)%N -> cell_value E (KInteger mn mx) (VInt z)
| cell_float : forall mn mx x,
    parse_float (e_udigit E) (e_str E (VFloat x)) = Some x -> fits (e_str E (VFloat x)) -> e_str E (VFloat x) <> [] ->
    cell_value E (KFloat mn mx) (VFloat x)
| cell_other : forall k s, ~ In (kind_type k) [$"boolean"; $"integer"; $"float"] -> fits s -> cell_value E k (VStr s).

(** What is left of an item: the columns, in order, without null and the empty text. *)
Definition left_of (names : list str) (item : list (val * val)) : list (val * val) :=
  flat_map (fun name => match sget name item with
                        | None | Some VNone | Some (VStr []) => []
                        | Some v => [(VStr name, v)]
                        end) names.

(** The columns asked for: those named, or all in alphabetical order. *)
Definition asks (columns : val) (l : list (str * field)) (names : list str) : Prop :=
  columns = VNone /\ names = sort_str (map fst l) \/ columns = VList (map VStr names) /\ names <> [].

(** Only the names of scalar columns. *)
Inductive scalar_names (E : env) (l : list (str * field)) : list str -> list str -> Prop :=
| names_nil : scalar_names E l [] []
| names_keep : forall name k names r,
    scalar_column E l name k -> scalar_names E l names r -> scalar_names E l (name :: names) (name :: r)
| names_absent : forall name names r,
    aget name l = None -> scalar_names E l names r -> scalar_names E l (name :: names) r
| names_structural : forall name f k names r,
    aget name l = Some f -> kind_at E f = Some k -> kind_structural k = true ->
    scalar_names E l names r -> scalar_names E l (name :: names) r.

(** What a cell that is not empty means in a column of a kind: a truth value (only ["true"] is true), an
    integer or float that Python reads in it, the text itself elsewhere.
    /repo/scheme/formats/csv.py:99-106 *)
Inductive cell_means (E : env) : kind -> str -> val -> Prop :=
| means_true : cell_means E KBoolean $"true" (VBool true)
| means_false : forall s, s <> $"true" -> cell_means E KBoolean s (VBool false)
| means_integer : forall mn mx s z, parse_int (e_udigit E) s = Some z -> cell_means E (KInteger mn mx) s (VInt z)
| means_float : forall mn mx s x, parse_float (e_udigit E) s = Some x -> cell_means E (KFloat mn mx) s (VFloat x)
| means_text : forall k s, ~ In (kind_type k) [$"boolean"; $"integer"; $"float"] -> cell_means E k s (VStr s).

(** What a row means under a header: the cells that are not empty, under their columns; further cells
    mean nothing. *)
Inductive row_means (E : env) (l : list (str * field)) : list str -> list str -> list (val * val) -> Prop :=
| row_end : forall row, row_means E l [] row []
| row_empty : forall c header row item, row_means E l header row item -> row_means E l (c :: header) ([] :: row) item
| row_cell : forall c k header s row v item,
    s <> [] -> scalar_column E l c k -> cell_means E k s v -> row_means E l header row item ->
    row_means E l (c :: header) (s :: row) ((VStr c, v) :: item).

(** A row with which reading stops: it ends before the header does, or it has a cell that means nothing,
    and what comes before that in the row is in order. *)
Inductive row_fails (E : env) (l : list (str * field)) (header row : list str) : pyexc -> Prop :=
| row_short : forall before c after item,
    header = before ++ c :: after -> length row = length before -> row_means E l before row item ->
    row_fails E l header row IndexError
| row_senseless : forall before c after cells s cells' k item,
    header = before ++ c :: after -> row = cells ++ s :: cells' -> length cells = length before ->
    row_means E l before cells item -> s <> [] -> scalar_column E l c k -> (forall v, ~ cell_means E k s v) ->
    row_fails E l header row ValueError.

(** A text without its line ends. *)
Inductive unbroken : str -> str -> Prop :=
| unbroken_nil : unbroken [] []
| unbroken_end : forall s t, unbroken s t -> unbroken (13%N :: 10%N :: s) t
| unbroken_char : forall c s t, (c = 13%N -> forall s', s <> 10%N :: s') -> unbroken s t -> unbroken (c :: s) (c :: t).
