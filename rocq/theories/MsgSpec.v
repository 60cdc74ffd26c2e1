(** * Specification of the texts of errors: what each field says about each token. *)
From Verif Require Export Msg Spec.

(** What a message calls a field: its name, ['unknown-field'] if it has none. *)
Definition called (p : params) (who : str) : Prop :=
  match p_name p with
  | Some name => (name <> [] /\ who = name) \/ (name = [] /\ who = $"unknown-field")
  | None => who = $"unknown-field"
  end.

(** The tokens a field may report, those about missing and unknown keys included. *)
Definition reports {F} (p : params) (k : kindP val F) (c : ecls) (tok : str) : Prop :=
  tells p k c tok
  \/ c = CValidation
     /\ match k with
        | KMap _ _ (Some _) => tok = $"required"
        | KStructure _ strict _ => tok = $"required" \/ strict = true /\ tok = $"unknown"
        | _ => False
        end.

(** One or several of a thing. *)
Definition singular_up_to_one (n : Z) (one many : str) : str := if (n <=? 1)%Z then one else many.

(** Title and message of the error [tok] of a field called [who]; [key] is the key it is about, or the
    text that cannot be imported.  /repo/scheme/field.py:165-169 and the [errors] of each class. *)
Definition wording (E : env) (repr fixed : val -> str) {F} (who : str) (k : kindP val F) (tok : str)
  (key : val) : option (str * str) :=
  if str_eqb tok $"nonnull" then Some ($"null value", who ++ $" must be a non-null value")
  else if str_eqb tok $"overflow" then Some ($"overflow error", who ++ $" overflowed")
  else if str_eqb tok $"invalid" then
    Some ($"invalid value",
      who ++ match k with
             | KField | KUnion _ => $" is an invalid value"
             | KBinary _ _ => $" must be a binary value"
             | KBoolean => $" must be a boolean value"
             | KDate _ _ => $" must be a date value"
             | KDateTime _ _ _ => $" must be a datetime value"
             | KDecimal _ _ => $" must be a decimal value"
             | KDefinition _ => $" must be a field definition"
             | KEmail _ _ _ _ | KText _ _ _ _ => $" must be a textual value"
             | KEnumeration l _ => $" must be one of " ++ join $", " (map repr l)
             | KError => $" must be a structural error"
             | KFloat _ _ => $" must be a floating-point number"
             | KInteger _ _ => $" must be an integer"
             | KMap _ _ _ => $" must be a map"
             | KObject => $" must be a python object"
             | KSequence _ _ _ _ => $" must be a sequence"
             | KStructure _ _ _ => $" must be a structure"
             | KSurrogate _ => $" must be a surrogate"
             | KTime _ _ => $" must be a time value"
             | KToken _ => $" must be a valid token"
             | KTuple _ => $" must be a tuple"
             | KUUID => $" must be a UUID"
             end)
  else if str_eqb tok $"minimum" then
    option_map (fun m => ($"minimum value", who ++ m))
      match k with
      | KDate (Some d) _ => Some ($" must not occur before " ++ date_text (e_pad E) d)
      | KDateTime (Some d) _ _ => Some ($" must not occur before " ++ datetime_text (e_pad E) d)
      | KTime (Some t) _ => Some ($" must not occur before " ++ tod_text t)
      | KDecimal (Some d) _ => Some ($" must be greater then or equal to " ++ dec_text d)
      | KFloat (Some x) _ => Some ($" must be greater then or equal to " ++ fixed (VFloat x))
      | KInteger (Some z) _ => Some ($" must be greater then or equal to " ++ Z_text z)
      | _ => None
      end
  else if str_eqb tok $"maximum" then
    option_map (fun m => ($"maximum value", who ++ m))
      match k with
      | KDate _ (Some d) => Some ($" must not occur after " ++ date_text (e_pad E) d)
      | KDateTime _ (Some d) _ => Some ($" must not occur after " ++ datetime_text (e_pad E) d)
      | KTime _ (Some t) => Some ($" must not occur after " ++ tod_text t)
      | KDecimal _ (Some d) => Some ($" must be less then or equal to " ++ dec_text d)
      | KFloat _ (Some x) => Some ($" must be less then or equal to " ++ fixed (VFloat x))
      | KInteger _ (Some z) => Some ($" must be less then or equal to " ++ Z_text z)
      | _ => None
      end
  else if str_eqb tok $"min_length" then
    option_map (fun m => ($"minimum length", who ++ m))
      match k with
      | KBinary (Some n) _ =>
          Some ($" must contain at least " ++ Z_text n ++ $" " ++ singular_up_to_one n $"byte" $"bytes")
      | KText _ (Some n) _ _ | KEmail _ _ (Some n) _ =>
          Some ($" must contain at least " ++ Z_text n ++ $" non-whitespace "
                ++ singular_up_to_one n $"character" $"characters")
      | KSequence _ (Some n) _ _ =>
          Some ($" must have at least " ++ Z_text n ++ $" " ++ if (n =? 1)%Z then $"item" else $"items")
      | _ => None
      end
  else if str_eqb tok $"max_length" then
    option_map (fun m => ($"maximum length", who ++ m))
      match k with
      | KBinary _ (Some n) =>
          Some ($" must contain at most " ++ Z_text n ++ $" " ++ singular_up_to_one n $"byte" $"bytes")
      | KText _ _ (Some n) _ | KEmail _ _ _ (Some n) =>
          Some ($" may contain at most " ++ Z_text n ++ $" "
                ++ singular_up_to_one n $"character" $"characters")
      | KSequence _ _ (Some n) _ =>
          Some ($" must have at most " ++ Z_text n ++ $" " ++ if (n =? 1)%Z then $"item" else $"items")
      | _ => None
      end
  else if str_eqb tok $"pattern" then
    option_map (fun m => ($"invalid value", who ++ m))
      match k with
      | KText _ _ _ _ => Some $" has an invalid value"
      | KEmail true _ _ _ => Some $" must be a list of valid email addresses"
      | KEmail false _ _ _ => Some $" must be a valid email address"
      | _ => None
      end
  else
    match k with
    | KDefinition (Some valid) =>
        if str_eqb tok $"invalidfield"
        then Some ($"invalid field", who ++ $" must be one of " ++ join $", " (sort_str valid)) else None
    | KMap _ _ _ =>
        if str_eqb tok $"invalidkeys" then Some ($"invalid keys", who ++ $" must have valid keys")
        else if str_eqb tok $"required"
        then Some ($"required key", who ++ $" is missing required key '" ++ arg_text E key ++ $"'") else None
    | KObject => if str_eqb tok $"import" then Some ($"object import", $"cannot import " ++ repr key) else None
    | KSequence _ _ _ _ =>
        if str_eqb tok $"duplicate" then Some ($"duplicate value", who ++ $" must not have duplicate values")
        else None
    | KStructure _ _ _ =>
        if str_eqb tok $"required"
        then Some ($"required field", who ++ $" is missing required field '" ++ arg_text E key ++ $"'")
        else if str_eqb tok $"unknown"
        then Some ($"unknown field", who ++ $" includes an unknown field '" ++ arg_text E key ++ $"'")
        else if str_eqb tok $"unrecognized"
        then Some ($"unrecognized polymorphic identity",
                   who ++ $" must specify a recognized polymorphic identity")
        else None
    | KTuple values =>
        if str_eqb tok $"length"
        then Some ($"invalid length",
                   who ++ $" must contain exactly " ++ Z_text (Z.of_nat (length values)) ++ $" values")
        else None
    | _ => None
    end.

(** The entry of an error about a token.  /repo/scheme/exceptions.py:208-209 *)
Definition message_entry (tok title message : str) : val :=
  VDict false [(VStr $"token", VStr tok); (VStr $"title", VStr title); (VStr $"message", VStr message)].

(** [part E g f]: the field [g] is [f] or occurs in it, placeholders being followed. *)
Inductive part (E : env) : field -> field -> Prop :=
| part_self : forall f, part E f f
| part_inner : forall p k g h, In g (subfields k) -> part E h g -> part E h (Fld p k)
| part_placeholder : forall i g h, e_undef E i = Some g -> part E h g -> part E h (FUndef i).

(** [within x e]: the error [x] is [e] or nested in it, at any depth. *)
Inductive within : err -> err -> Prop :=
| within_self : forall e, within e e
| within_nested : forall e s x y, er_structure e = Some s -> nested s x -> within y x -> within y e.

(** Numbers.  For ['%f'], /repo/scheme/fields/float.py: errors *)
Inductive a_number : val -> Prop :=
| number_bool b : a_number (VBool b)
| number_int z : a_number (VInt z)
| number_float f : a_number (VFloat f)
| number_dec d : a_number (VDec d).

(** How ['%s'], ['%r'], ['%d'] and ['%f'] show a value.  /repo/scheme/field.py:29 *)
Inductive shown_as (E : env) (repr fixed : val -> str) : N -> val -> str -> Prop :=
| as_str_text s : shown_as E repr fixed 115 (VStr s) s
| as_str_int z : shown_as E repr fixed 115 (VInt z) (Z_text z)
| as_str_dec d : shown_as E repr fixed 115 (VDec d) (dec_text d)
| as_str_other v :
    (forall s, v <> VStr s) -> (forall z, v <> VInt z) -> (forall d, v <> VDec d) ->
    shown_as E repr fixed 115 v (e_str E v)
| as_repr v : shown_as E repr fixed 114 v (repr v)
| as_int z : shown_as E repr fixed 100 (VInt z) (Z_text z)
| as_int_bool b : shown_as E repr fixed 100 (VBool b) (if b then $"1" else $"0")
| as_int_float f z : Z_of_float f = Some z -> shown_as E repr fixed 100 (VFloat f) (Z_text z)
| as_int_dec d z : Z_of_dec d = Some z -> shown_as E repr fixed 100 (VDec d) (Z_text z)
| as_fixed v : a_number v -> shown_as E repr fixed 102 v (fixed v).

(** [text] is the template with every ["%(name)c"] replaced by the parameter of that name, shown as [c]
    says, and ["%%"] by ["%"].  /repo/scheme/field.py:29 *)
Inductive filled (E : env) (repr fixed : val -> str) (params : list (str * val)) : str -> str -> Prop :=
| filled_end : filled E repr fixed params [] []
| filled_char c t r :
    c <> 37%N -> filled E repr fixed params t r -> filled E repr fixed params (c :: t) (c :: r)
| filled_percent t r :
    filled E repr fixed params t r -> filled E repr fixed params ($"%%" ++ t) ($"%" ++ r)
| filled_name name c t v s r :
    ~ In 41%N name -> aget name params = Some v -> shown_as E repr fixed c v s ->
    filled E repr fixed params t r ->
    filled E repr fixed params ($"%(" ++ name ++ $")" ++ [c] ++ t) (s ++ r).

(** The error of a field made with [errors] for the token [tok]: the last one given for it, or else
    that of the class; an Email does not look at what is given.  /repo/scheme/field.py:205-208,
    fields/email.py:31-46 *)
Definition error_of (k : kind) (errors : list ferror) (tok : str) (e : ferror) : Prop :=
  let email := exists m x mn mx, k = KEmail m x mn mx in
  (~ email /\ exists l1 l2, errors = l1 ++ e :: l2 /\ fe_token e = tok /\ ~ In tok (map fe_token l2))
  \/ ((email \/ ~ In tok (map fe_token errors)) /\ aget tok (error_table k) = Some e).

(** The parameters of a message: what the caller gives; unless that says what the field is called, it
    is called [who].  /repo/scheme/field.py:27-28 *)
Definition with_field (who : str) (given : list (str * val)) : list (str * val) :=
  match aget $"field" given with Some _ => given | None => given ++ [($"field", VStr who)] end.
