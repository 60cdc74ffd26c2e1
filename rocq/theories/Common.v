(** * The field for the serialization of errors.  /repo/scheme/common.py *)
From Verif Require Export Process.

(** A field without any parameter but [nonnull] and [description].  /repo/scheme/field.py:171-174 *)
Definition p_described (nonnull : bool) (d : val) : params :=
  {| p_name := None; p_nonnull := nonnull; p_required := false; p_ignore_null := false;
     p_default := VNone; p_constant := VNone; p_preprocessor := None; p_extractor := None;
     p_instantiator := None; p_title := VNone; p_description := d; p_notes := VNone;
     p_aspects := [] |}.

(** [Errors].  /repo/scheme/common.py:5-9 *)
Definition errors_field : field :=
  Fld (p_described false (VStr $"A two-tuple containing top-level and structural errors."))
    (KTuple
       [ Fld (p_described false (VStr $"A sequence of top-level errors."))
           (KSequence
              (Fld (p_described false (VStr $"A mapping describing an error."))
                 (KMap (Fld (p_described true VNone) (KText None None None true)) None None))
              None None false);
         Fld (p_described false (VStr $"A structure containing structural errors.")) KField ]).
