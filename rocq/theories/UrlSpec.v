(** * Specifications of the URL encoded format (C61). *)
From Verif Require Export StSpec UrlText.

(** Texts with a UTF-8 encoding: no surrogates. *)
Definition unicode (s : str) : Prop :=
  forall c, In c s -> (c < 1114112)%N /\ ~ (55296 <= c < 57344)%N.

(** All texts of a value, keys included, are encodable. *)
Inductive unicode_value : val -> Prop :=
| uv_bool : forall b, unicode_value (VBool b)
| uv_null : unicode_value VNone
| uv_text : forall s, unicode s -> unicode_value (VStr s)
| uv_list : forall l, (forall v, In v l -> unicode_value v) -> unicode_value (VList l)
| uv_dict : forall o l, (forall k v, In (k, v) l -> unicode_value k /\ unicode_value v) -> unicode_value (VDict o l).

(** A value of a form: any text that is not empty and not a keyword, or a clean structure. *)
Definition form_value (E : env) (v : val) : Prop :=
  (exists s, v = VStr s /\ s <> [] /\ ~ In (lower (e_ulower E) s) [$"true"; $"false"; $"null"])
  \/ clean E false v /\ v <> VStr [].

(** The characters allowed in a query: letters, digits, [_.-~], [%], [+], [=] and [&]. *)
Definition query_char (c : N) : Prop :=
  (48 <= c <= 57)%N \/ (65 <= c <= 90)%N \/ (97 <= c <= 122)%N \/ In c $"_.-~%+=&".
