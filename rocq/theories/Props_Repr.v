(** Property theorems proved in ReprProofs.v (generated by tools/mkprops.py). *)
From Verif Require Import Spec Demo BuildSpec ReprSpec ReprProofs.
Open Scope nat_scope.

(** C89.  The repr of a field is the name of its class and, in parentheses, what it says of the field:
    its name, the parameters of its class, whether it has a constant, its default, its flags and its
    title, each once and only if it is set; fields within it are shown by their own repr. *)
Theorem C89_repr_says :
  forall E repr undef p k s,
    well_made k -> field_repr E repr undef (Fld p k) = Ok s ->
    exists l, s = class_label k ++ $"(" ++ join $", " (map (fun a => fst a ++ $"=" ++ snd a) l) ++ $")"
              /\ NoDup (map fst l)
              /\ (forall a, In a l -> says E repr undef p k (fst a) (snd a))
              /\ (forall label text, says E repr undef p k label text -> In label (map fst l)).
Proof. exact repr_says. Qed.
Print Assumptions C89_repr_says.

Example C89_repr_example :
  let r := fun v => match v with VStr s => $"'" ++ s ++ $"'" | VInt z => Z_text z | _ => $"?" end in
  let f := Fld p_req (KSequence (Fld (p_named $"n") (KInteger (Some 1%Z) None)) None (Some 5%Z) true) in
  well_made (KSequence (Fld (p_named $"n") (KInteger (Some 1%Z) None)) None (Some 5%Z) true)
  /\ field_repr env0 r (fun _ => []) f
     = Ok $"Sequence(item=Integer(name='n', minimum=1), max_length=5, unique=True, required=True)".
Proof. split; [exact I|]. vm_compute. reflexivity. Qed.

(** C89.  The name of the class is, in small letters, the type that describe and reconstruct use. *)
Theorem C89_repr_class :
  forall ul (k : kind), lower ul (class_label k) = kind_type k.
Proof. exact repr_class. Qed.
Print Assumptions C89_repr_class.

Example C89_class_example : lower (fun _ => []) $"DateTime" = $"datetime" /\ class_label (KUUID : kind) = $"UUID".
Proof. split; reflexivity. Qed.

(** C89.  As long as the required keys of the maps in it are texts, a field has a repr exactly if no
    default and no title in it is a tuple of other than one value. *)
Theorem C89_repr_exists_partial :
  forall E repr undef f,
    (forall p k, shown_in (Fld p k) f -> well_made k) ->
    ((exists s, field_repr E repr undef f = Ok s)
     <-> forall p k, shown_in (Fld p k) f ->
           printable (p_default p) /\ (truthy (p_title p) = true -> printable (p_title p))).
Proof. exact repr_exists_partial. Qed.
Print Assumptions C89_repr_exists_partial.

Example C89_repr_exists_partial_example :
  let f := Fld (p_def (VTuple [VInt 5])) (KTuple [Fld p0 (KInteger None None)]) in
  (forall p k, shown_in (Fld p k) f -> well_made k)
  /\ field_repr env0 (fun _ => $"5") (fun _ => []) f = Ok $"Tuple(values=(Integer(),), default=5)".
Proof.
  split; [|vm_compute; reflexivity]. intros p k H. inversion H as [|h g q k0 I K]; subst; [exact Logic.I|].
  destruct I as [<-|[]]. inversion K as [|h' g' q' k' I' K']; subst; [exact Logic.I|destruct I'].
Qed.

(** C89.  As stated the claim fails: the repr of a Tuple field with a default raises TypeError. *)
Theorem C89_repr_refuted :
  exists f, (forall p k, shown_in (Fld p k) f -> well_made k)
    /\ run0 f Inbound false (VTuple [VInt 1; VInt 2]) = Ok (VTuple [VInt 1; VInt 2])
    /\ forall E repr undef, field_repr E repr undef f = py TypeError.
Proof. exact repr_refuted. Qed.
Print Assumptions C89_repr_refuted.

Example C89_refuted_example :
  exists s, field_repr env0 (fun _ => $"x") (fun _ => [])
    (Fld p0 (KTuple [Fld p0 (KInteger None None); Fld p0 (KInteger None None)])) = Ok s.
Proof. eexists. vm_compute. reflexivity. Qed.

(** C90.  Zones without a name whose offsets differ are named differently. *)
Theorem C90_zone_names_differ :
  forall m m' s, zone_tzname {| z_name := None; z_offset := Some m |} = Ok s ->
    zone_tzname {| z_name := None; z_offset := Some m' |} = Ok s -> m = m'.
Proof. exact zone_names_differ. Qed.
Print Assumptions C90_zone_names_differ.

Example C90_names_differ_example :
  zone_tzname {| z_name := None; z_offset := Some 330%Z |} = Ok $"+05:30"
  /\ zone_tzname {| z_name := None; z_offset := Some (-300)%Z |} = Ok $"-05".
Proof. split; reflexivity. Qed.

(** C90.  A zone without a name is called by its offset (sign, hours and, if there are any, minutes,
    with two digits each) exactly if the offset is a number of whole hours, or is positive with at least
    ten minutes above the hour. *)
Theorem C90_zone_named_partial :
  forall m, zone_tzname {| z_name := None; z_offset := Some m |} = Ok (usual_name m)
            <-> (m mod 60 = 0 \/ (0 < m /\ 10 <= m mod 60))%Z.
Proof. exact zone_named_partial. Qed.
Print Assumptions C90_zone_named_partial.

Example C90_named_example :
  (345 mod 60 = 0 \/ (0 < 345 /\ 10 <= 345 mod 60))%Z /\ usual_name 345 = $"+05:45"
  /\ zone_tzname {| z_name := None; z_offset := Some 345%Z |} = Ok $"+05:45"
  /\ usual_name (-90) = $"-01:30".
Proof. split; [right; split; [reflexivity|discriminate]|]. split; [reflexivity|]. split; reflexivity. Qed.

(** C90.  As stated the claim fails: a zone half an hour behind UTC is called "-01:30", and one five
    minutes ahead is called "+00:5". *)
Theorem C90_zone_named_refuted :
  exists m m', zone_tzname {| z_name := None; z_offset := Some m |} = Ok $"-01:30" /\ usual_name m = $"-00:30"
    /\ zone_tzname {| z_name := None; z_offset := Some m' |} = Ok $"+00:5" /\ usual_name m' = $"+00:05".
Proof. exact zone_named_refuted. Qed.
Print Assumptions C90_zone_named_refuted.

Example C90_refuted_example : usual_name (-30) = $"-00:30" /\ usual_name 600 = $"+10".
Proof. split; reflexivity. Qed.

(** C90.  A zone with a name is called by it, also by repr unless it is empty; the repr of a zone
    without a name, or with an empty one, gives the offset in seconds modulo a day, so that two of them have the same repr
    exactly if their offsets differ by whole days. *)
Theorem C90_zone_shown :
  (forall name o, zone_tzname {| z_name := Some name; z_offset := o |} = Ok name)
  /\ (forall name o, name <> [] -> zone_repr {| z_name := Some name; z_offset := o |} = Ok name)
  /\ (forall name m, name = None \/ name = Some [] ->
        zone_repr {| z_name := name; z_offset := Some m |}
        = Ok ($"FixedOffsetTimezone(" ++ Z_text (60 * m mod 86400) ++ $")")
        /\ zone_repr {| z_name := name; z_offset := None |} = py AttributeError)
  /\ forall m m', zone_repr {| z_name := None; z_offset := Some m |} = zone_repr {| z_name := None; z_offset := Some m' |}
                  <-> exists d, (m = m' + 1440 * d)%Z.
Proof. exact zone_shown. Qed.
Print Assumptions C90_zone_shown.

Example C90_shown_example :
  zone_repr {| z_name := None; z_offset := Some (-30)%Z |} = Ok $"FixedOffsetTimezone(84600)"
  /\ zone_repr {| z_name := Some $"UTC"; z_offset := Some 0%Z |} = Ok $"UTC".
Proof. split; reflexivity. Qed.
