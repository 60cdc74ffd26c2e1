(** * A concrete environment and field builders, used only by the examples. *)
From Verif Require Export Process.

(** UTC+1 without daylight saving; nothing can be imported; one preprocessor (number 0: the
    identity), one pattern (number 0: non empty).  No counterpart in /repo. *)
Definition env0 : env := {|
  e_pre := fun n v => match n with O => Ok v | _ => py ValueError end;
  e_ext := fun n v => match n with O => Ok v | _ => py ValueError end;
  e_inst := fun n v k => match n with O => Ok v | _ => py ValueError end;
  e_pattern := fun n s => match s with [] => false | _ => true end;
  e_local := {| lt_std := 3600; lt_dst := 3600; lt_isdst := fun _ => false |};
  e_pad := true;
  e_udigit := fun _ => None;
  e_uword := fun _ => false;
  e_ulower := fun c => [c];
  e_import := fun _ => None;
  e_identify := fun _ => None;
  e_undef := fun _ => None;
  e_str := fun _ => $"?";
  e_impl := fun _ => O;
  e_schemas := fun _ => [];
  e_compile := fun s => match s with [] => None | _ => Some O end;
  e_surrogate := fun _ => None;
  e_identity := fun _ => None;
  e_repr := fun _ => $"?"
|}.

(** A field without any optional parameter (all defaults of /repo/scheme/field.py:171-174). *)
Definition p0 : params :=
  {| p_name := None; p_nonnull := false; p_required := false; p_ignore_null := false;
     p_default := VNone; p_constant := VNone; p_preprocessor := None; p_extractor := None;
     p_instantiator := None; p_title := VNone; p_description := VNone; p_notes := VNone;
     p_aspects := [] |}.

(** [p0] with [nonnull] and [required] set. *)
Definition p_req : params :=
  {| p_name := None; p_nonnull := false; p_required := true; p_ignore_null := false;
     p_default := VNone; p_constant := VNone; p_preprocessor := None; p_extractor := None;
     p_instantiator := None; p_title := VNone; p_description := VNone; p_notes := VNone;
     p_aspects := [] |}.

Definition p_nn : params :=
  {| p_name := None; p_nonnull := true; p_required := false; p_ignore_null := false;
     p_default := VNone; p_constant := VNone; p_preprocessor := None; p_extractor := None;
     p_instantiator := None; p_title := VNone; p_description := VNone; p_notes := VNone;
     p_aspects := [] |}.

(** [p0] with a default. *)
Definition p_def (d : val) : params :=
  {| p_name := None; p_nonnull := false; p_required := false; p_ignore_null := false;
     p_default := d; p_constant := VNone; p_preprocessor := None; p_extractor := None;
     p_instantiator := None; p_title := VNone; p_description := VNone; p_notes := VNone;
     p_aspects := [] |}.

(** [p0] with a constant. *)
Definition p_const (c : val) : params :=
  {| p_name := None; p_nonnull := false; p_required := false; p_ignore_null := false;
     p_default := VNone; p_constant := c; p_preprocessor := None; p_extractor := None;
     p_instantiator := None; p_title := VNone; p_description := VNone; p_notes := VNone;
     p_aspects := [] |}.

(** [p0] with a name. *)
Definition p_named (s : str) : params :=
  {| p_name := Some s; p_nonnull := false; p_required := false; p_ignore_null := false;
     p_default := VNone; p_constant := VNone; p_preprocessor := None; p_extractor := None;
     p_instantiator := None; p_title := VNone; p_description := VNone; p_notes := VNone;
     p_aspects := [] |}.

Definition nodesc (f : field) : res val := py NotImplementedError.
Definition norecon (v : val) : res field := py NotImplementedError.

(** [process] at the top level in the concrete environment. *)
Definition run0 (f : field) (ph : phase) (ser : bool) (v : val) : res val :=
  process_gen env0 nodesc norecon 5 f false ph ser [] v.
