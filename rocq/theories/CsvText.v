(** * The CSV format, with the parts of Python's [csv] module it uses. *)
From Verif Require Export StText Schema.

(** ** Writing *)

(** A cell in quotes, quotes inside doubled: QUOTE_ALL with [doublequote].
    /repo/scheme/formats/csv.py:21-29, 64, 79 *)
Fixpoint doubled (s : str) : str :=
  match s with
  | [] => []
  | c :: s' => if (c =? 34)%N then 34%N :: 34%N :: doubled s' else c :: doubled s'
  end.
(** A quoted cell.  /repo/scheme/formats/csv.py:62-64, 79 *)
Definition csv_cell (s : str) : str := 34%N :: doubled s ++ [34%N].

(** [writer.writerow(row)].  /repo/scheme/formats/csv.py:62-64, 79 *)
Definition csv_row (cells : list str) : str := join $"," (map csv_cell cells) ++ [13%N; 10%N].

(** ** Reading *)

(** [s.strip('\r\n')] and [s.split('\r\n')].  /repo/scheme/formats/csv.py:92 *)
Definition is_crlf (c : N) : bool := (c =? 13)%N || (c =? 10)%N.
(** /repo/scheme/formats/csv.py:92 *)
Fixpoint split_crlf (s : str) : list str :=
  match s with
  | [] => [[]]
  | c :: s' =>
      match s' with
      | d :: s'' =>
          if (c =? 13)%N && (d =? 10)%N then [] :: split_crlf s''
          else match split_crlf s' with [] => [[c]] | h :: t => (c :: h) :: t end
      | [] => [[c]]
      end
  end.

(** The states of the reader of CPython's [csv] (Modules/_csv.c) for the dialect of
    /repo/scheme/formats/csv.py:21-29; used at /repo/scheme/formats/csv.py:92 *)
Inductive cstate := StartRecord | StartField | InField | InQuoted | QuoteInQuoted | EatNewline.

(** The longest field the reader accepts ([csv.field_size_limit()]).
    Used at /repo/scheme/formats/csv.py:92. *)
Definition field_limit : N := 131072.

(** State, the characters of the current field (last first) and the fields read so far.
    Used at /repo/scheme/formats/csv.py:92. *)
Record reader := { r_state : cstate; r_field : str; r_fields : list str }.
(** The start.  Used at /repo/scheme/formats/csv.py:92 *)
Definition fresh : reader := {| r_state := StartRecord; r_field := []; r_fields := [] |}.
(** Another state.  Used at /repo/scheme/formats/csv.py:92 *)
Definition to_state (st : cstate) (r : reader) : reader :=
  {| r_state := st; r_field := r_field r; r_fields := r_fields r |}.
(** The current field is complete.  Used at /repo/scheme/formats/csv.py:92 *)
Definition save (st : cstate) (r : reader) : reader :=
  {| r_state := st; r_field := []; r_fields := r_fields r ++ [rev (r_field r)] |}.
(** [csv.Error] is [OtherError 0] here.  Used at /repo/scheme/formats/csv.py:92 *)
Definition add_char (st : cstate) (c : N) (r : reader) : res reader :=
  if (field_limit <=? N.of_nat (length (r_field r)))%N then py (OtherError 0)
  else Ok {| r_state := st; r_field := c :: r_field r; r_fields := r_fields r |}.

(** [parse_process_char]; [None] is the end of a line.  Used at /repo/scheme/formats/csv.py:92. *)
Definition start_field (c : option N) (r : reader) : res reader :=
  match c with
  | None => Ok (save StartRecord r)
  | Some c =>
      if is_crlf c then Ok (save EatNewline r)
      else if (c =? 34)%N then Ok (to_state InQuoted r)
      else if (c =? 44)%N then Ok (save StartField r)
      else add_char InField c r
  end.
(** One character, [None] at the end of a line.  Used at /repo/scheme/formats/csv.py:92 *)
Definition read_char (c : option N) (r : reader) : res reader :=
  match r_state r with
  | StartRecord =>
      match c with
      | None => Ok r
      | Some d => if is_crlf d then Ok (to_state EatNewline r) else start_field c r
      end
  | StartField => start_field c r
  | InField =>
      match c with
      | None => Ok (save StartRecord r)
      | Some c =>
          if is_crlf c then Ok (save EatNewline r)
          else if (c =? 44)%N then Ok (save StartField r)
          else add_char InField c r
      end
  | InQuoted =>
      match c with
      | None => Ok r
      | Some c => if (c =? 34)%N then Ok (to_state QuoteInQuoted r) else add_char InQuoted c r
      end
  | QuoteInQuoted =>
      match c with
      | None => Ok (save StartRecord r)
      | Some c =>
          if (c =? 34)%N then add_char InQuoted c r
          else if (c =? 44)%N then Ok (save StartField r)
          else if is_crlf c then Ok (save EatNewline r)
          else add_char InField c r
      end
  | EatNewline =>
      match c with
      | None => Ok (to_state StartRecord r)
      | Some c => if is_crlf c then Ok r else py (OtherError 0)
      end
  end.

(** One line; the NUL character is refused.  Used at /repo/scheme/formats/csv.py:92. *)
Fixpoint read_line (s : str) (r : reader) : res reader :=
  match s with
  | [] => read_char None r
  | c :: s' => if (c =? 0)%N then py (OtherError 0) else do r' <- read_char (Some c) r; read_line s' r'
  end.

(** All rows ([Reader_iternext] repeatedly), and how the iteration ends.
    Used at /repo/scheme/formats/csv.py:92-93, 111. *)
Fixpoint read_rows (lines : list str) (r : reader) : list (list str) * res unit :=
  match lines with
  | [] =>
      match r_state r, r_field r with
      | InQuoted, _ | _, _ :: _ => ([r_fields r ++ [rev (r_field r)]], Ok tt)
      | _, [] => ([], Ok tt)
      end
  | s :: lines' =>
      match read_line s r with
      | Raise x => ([], Raise x)
      | Ok r' =>
          match r_state r' with
          | StartRecord => let rows := read_rows lines' fresh in (r_fields r' :: fst rows, snd rows)
          | _ => read_rows lines' r'
          end
      end
  end.

(** ** The format *)
Section Csv.
Context (E : env).

(** The field in a slot; a placeholder stands for the field it was defined as.
    /repo/scheme/field.py:616-634 *)
Definition kind_at (f : field) : option kind :=
  match f with
  | Fld _ k => Some k
  | FUndef n => match e_undef E n with Some (Fld _ k) => Some k | _ => None end
  end.

(** The loop over [path]: from structure to structure.  A value on the way that is not a dict is not
    modelled.  /repo/scheme/formats/csv.py:33-39 *)
Fixpoint follow (path : list str) (value : val) (schema : field) : res (val * field) :=
  match path with
  | [] => Ok (value, schema)
  | key :: path' =>
      match kind_at schema with
      | Some (KStructure (SPlain l) _ _) =>
          match get l key, value with
          | None, _ => py ValueError
          | Some f, (VDict _ d | VSurr _ _ _ d) =>
              match sget key d with Some v => follow path' v f | None => py ValueError end
          | Some _, _ => outside
          end
      | Some (KStructure (SPoly _ _) _ _) => outside
      | Some _ => py TypeError
      | None => py AttributeError
      end
  end.

(** The structure of the items of a sequence.  [wrong] is what the caller raises otherwise.
    /repo/scheme/formats/csv.py:43-48, 85-90 *)
Definition row_structure (wrong : pyexc) (schema : field) : res sdef :=
  match kind_at schema with
  | Some (KSequence item _ _ _) =>
      match kind_at item with
      | Some (KStructure d _ _) => Ok d
      | _ => py wrong
      end
  | _ => py wrong
  end.

(** [structure.get(column)] as far as it is used: [None] when there is no field of that name or it is
    structural; the fields of a polymorphic structure are dicts and have no [structural].
    /repo/scheme/formats/csv.py:57-58, 97-98 *)
Definition column_field (d : sdef) (column : str) : res (option kind) :=
  match d with
  | SPlain l =>
      match get l column with
      | None => Ok None
      | Some f => match kind_at f with
                  | Some k => Ok (if kind_structural k then None else Some k)
                  | None => py AttributeError
                  end
      end
  | SPoly _ vs =>
      match find (fun vl => veq (e_local E) (fst vl) (VStr column)) vs with
      | Some (_, _ :: _) => py AttributeError
      | _ => Ok None
      end
  end.

(** [sorted(structure.structure.keys())]; identities that are not strings are not modelled.
    /repo/scheme/formats/csv.py:53 *)
Definition all_columns (d : sdef) : res (list str) :=
  match d with
  | SPlain l => Ok (sort_str (map fst l))
  | SPoly _ vs =>
      if forallb (fun vl => match fst vl with VStr _ => true | _ => false end) vs
      then Ok (sort_str (map (fun vl => match fst vl with VStr s => s | _ => [] end) vs)) else outside
  end.

(** The argument [columns]: a text with commas, a list of texts, or nothing.
    /repo/scheme/formats/csv.py:50-53 *)
Definition chosen_columns (columns : val) (d : sdef) : res (list str) :=
  match columns with
  | VStr s => Ok (split_on 44 s)
  | VList [] | VTuple [] | VNone => all_columns d
  | VList l | VTuple l =>
      if forallb (fun v => match v with VStr _ => true | _ => false end) l
      then Ok (map (fun v => match v with VStr s => s | _ => [] end) l) else outside
  | _ => outside
  end.

(** The columns that are written.  /repo/scheme/formats/csv.py:55-59 *)
Fixpoint written_columns (d : sdef) (columns : list str) : res (list (str * kind)) :=
  match columns with
  | [] => Ok []
  | column :: columns' =>
      do k <- column_field d column;
      do r <- written_columns d columns';
      Ok (match k with Some k => (column, k) :: r | None => r end)
  end.

(** One cell.  /repo/scheme/formats/csv.py:68-77 *)
Definition cell_text (k : kind) (candidate : option val) : str :=
  match candidate with
  | None | Some VNone => []
  | Some v =>
      if str_eqb (kind_type k) $"boolean" then (if truthy v then $"true" else $"false") else text_of E v
  end.

(** The rows; an item without [get] raises AttributeError.  /repo/scheme/formats/csv.py:65-79 *)
Fixpoint written_rows (cells : list (str * kind)) (items : list val) : res (list (list str)) :=
  match items with
  | [] => Ok []
  | (VDict _ d | VSurr _ _ _ d) :: items' =>
      do r <- written_rows cells items';
      Ok (map (fun c => cell_text (snd c) (sget (fst c) d)) cells :: r)
  | _ :: items' => match cells with
                   | [] => do r <- written_rows cells items'; Ok ([] :: r)
                   | _ => py AttributeError
                   end
  end.

(** [Csv.serialize]; [path] is split at its points.  /repo/scheme/formats/csv.py:31-81 *)
Definition csv_serialize (columns : val) (path : list str) (value : val) (schema : field) : res str :=
  do vs <- follow path value schema;
  match fst vs with
  | VList items | VTuple items =>
      do d <- row_structure ValueError (snd vs);
      do names <- chosen_columns columns d;
      do cells <- written_columns d names;
      do rows <- written_rows cells items;
      Ok (concat (map csv_row (map fst cells :: rows)))
  | _ => py ValueError
  end.

(** The columns of the header; an unknown or structural one is refused.
    /repo/scheme/formats/csv.py:95-108 *)
Fixpoint read_columns (d : sdef) (columns : list str) : res (list (str * kind)) :=
  match columns with
  | [] => Ok []
  | column :: columns' =>
      do k <- column_field d column;
      match k with
      | Some k => do r <- read_columns d columns'; Ok ((column, k) :: r)
      | None => py ValueError
      end
  end.

(** The converters.  /repo/scheme/formats/csv.py:99-106, 117-120 *)
Definition convert_cell (k : kind) (s : str) : res val :=
  if str_eqb (kind_type k) $"boolean" then Ok (VBool (str_eqb s $"true"))
  else if str_eqb (kind_type k) $"float" then
    match parse_float (e_udigit E) s with Some x => Ok (VFloat x) | None => py ValueError end
  else if str_eqb (kind_type k) $"integer" then
    match parse_int (e_udigit E) s with Some z => Ok (VInt z) | None => py ValueError end
  else Ok (VStr s).

(** One row: the cells that are not empty; a short row raises IndexError, further cells are not looked
    at.  /repo/scheme/formats/csv.py:112-122 *)
Fixpoint read_cells (cells : list (str * kind)) (row : list str) (candidate : list (str * val))
  : res (list (str * val)) :=
  match cells, row with
  | [], _ => Ok candidate
  | _ :: _, [] => py IndexError
  | (column, k) :: cells', s :: row' =>
      match s with
      | [] => read_cells cells' row' candidate
      | _ => do v <- convert_cell k s; read_cells cells' row' (aset column v candidate)
      end
  end.

(** /repo/scheme/formats/csv.py:110-124 *)
Fixpoint read_items (cells : list (str * kind)) (rows : list (list str)) : res (list val) :=
  match rows with
  | [] => Ok []
  | row :: rows' =>
      do c <- read_cells cells row [];
      do r <- read_items cells rows';
      Ok (VDict false (map (fun kv => (VStr (fst kv), snd kv)) c) :: r)
  end.

(** [Csv.unserialize] of a text; the text has at least one line.  A failing line comes after the rows
    before it.  /repo/scheme/formats/csv.py:83-124 *)
Definition csv_unserialize (value : str) (schema : field) : res val :=
  do d <- row_structure TypeError schema;
  match read_rows (split_crlf (strip is_crlf value)) fresh with
  | ([], Raise x) => Raise x
  | ([], Ok _) => py (OtherError 0)
  | (columns :: rows, final) =>
      do cells <- read_columns d columns;
      do items <- read_items cells rows;
      do _ <- final;
      Ok (VList items)
  end.

End Csv.
