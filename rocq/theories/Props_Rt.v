(** Property theorems proved in RtProofs.v (generated by tools/mkprops.py). *)
From Verif Require Import Spec Demo RtSpec RtProofs.
Open Scope Z_scope.

(** C34.  For every value that conforms to a schema of round-trippable types, outbound
    serialized processing succeeds, and inbound serialized processing of its result returns the
    value.  Values whose text form is lossy by design are excluded ([faithful]). *)
Theorem C34_serialization_round_trip_partial :
  forall E desc recon n f v,
    throughout E well_keyed f -> throughout E (tidy E) f -> throughout E (portable E) f ->
    conforms E n f v -> (forall k x, meets E f v k x -> faithful E desc recon k x) ->
    exists w,
      (forall anc, process_gen E desc recon n f false Outbound true anc v = Ok w)
      /\ (forall anc, process_gen E desc recon n f false Inbound true anc w = Ok v).
Proof. exact serialization_round_trip_partial. Qed.
Print Assumptions C34_serialization_round_trip_partial.

(* A structure with a set of dates and a map of decimals. *)
Example C34_example :
  let f := Fld p0 (KStructure (SPlain
             [($"days", Fld p0 (KSequence (Fld p_nn (KDate None None)) None None true));
              ($"sums", Fld p0 (KMap (Fld p0 (KDecimal None None)) (Some (Fld p_nn (KDate None None))) None))]) true None) in
  let v := VDict false [(VStr $"days", VList [VDate (Date 2024 2 29); VDate (Date 1999 1 1)]);
                        (VStr $"sums", VDict false [(VDate (Date 2000 1 1), VDec (DFin false 150 (-2)%Z))])] in
  let w := VDict false [(VStr $"days", VList [VStr $"2024-02-29"; VStr $"1999-01-01"]);
                        (VStr $"sums", VDict false [(VStr $"2000-01-01", VStr $"1.50")])] in
  run0 f Outbound true v = Ok w /\ run0 f Inbound true w = Ok v
  /\ throughout env0 (portable env0) f /\ forall k x, meets env0 f v k x -> faithful env0 nodesc norecon k x.
Proof.
  split; [reflexivity|]. split; [reflexivity|]. split.
  - split; [|discriminate]. constructor; [exact I|]. intros g [<-|[<-|[]]]; constructor.
    + exists p_nn, (KDate None None). split; reflexivity.
    + intros g [<-|[]]. constructor; [exact I|intros ? []].
    + exists p_nn, (KDate None None). split; [reflexivity|right; split; reflexivity].
    + intros g [<-|[<-|[]]]; constructor; [exact I|intros ? []|exact I|intros ? []].
  - assert (Hday : forall y m d, (y = 2024 /\ m = 2 /\ d = 29 \/ (y = 1999 \/ y = 2000) /\ m = 1 /\ d = 1)%Z ->
              forall k x, meets env0 (Fld p_nn (KDate None None)) (VDate (Date y m d)) k x -> faithful env0 nodesc norecon k x).
    { intros y m d H k x Hx. inversion Hx; subst. right. exists (Date y m d). split; [reflexivity|]. split; [|right; cbn; lia].
      split; [cbn; lia|]. destruct H as [[-> [-> ->]]|[_ [-> ->]]].
      - exists 29%Z. split; [|cbn; lia]. apply ml_leap. split; [exists 506%Z; reflexivity|]. left. intros [z Hz]. cbn in Hz. lia.
      - exists 31%Z. split; [|cbn; lia]. apply ml_long. left. reflexivity. }
    intros k x Hx. inversion Hx; subst; clear Hx; [right; exact I|].
    match goal with H : In _ _ |- _ => destruct H as [H|[H|[]]]; injection H as <- <- end;
      match goal with H : In _ _ |- _ => destruct H as [H|[H|[]]]; try discriminate H; injection H as <- end;
      match goal with H : meets _ _ _ _ _ |- _ => inversion H; subst; clear H end.
    + right. intros l d [= <-] [H|[H|[]]]; discriminate.
    + match goal with H : In _ _ |- _ => destruct H as [<-|[<-|[]]] end;
        match goal with H : meets _ _ _ _ _ |- _ => eapply Hday, H end; lia.
    + right. intros o l d y [= <- <-] [H|[]]; discriminate.
    + match goal with H : In _ _ |- _ => destruct H as [H|[]]; injection H as <- <- end.
      match goal with H : meets _ _ _ _ _ |- _ => eapply Hday, H end; lia.
    + match goal with H : In _ _ |- _ => destruct H as [H|[]]; injection H as <- <- end.
      match goal with H : meets _ _ _ _ _ |- _ => inversion H; subst end. right. exact I.
Qed.

(* A list of flags, words, numbers and dates by year: [Boolean | Enumeration | Integer | Sequence of Date];
   a number before a text is not such a union, since it would take the text "7". *)
Example C34_alternatives_example :
  let u := Fld p0 (KUnion [Fld p0 KBoolean; Fld p0 (KEnumeration [VStr $"all"; VStr $"none"] None);
                           Fld p0 (KTuple [Fld p0 (KDate None None)]); Fld p0 (KInteger (Some 5%Z) None)]) in
  let v := VTuple [VDate (Date 2024 2 29)] in
  (throughout env0 well_keyed u /\ throughout env0 (tidy env0) u /\ throughout env0 (portable env0) u)
  /\ (conforms env0 5 u v /\ forall k x, meets env0 u v k x -> faithful env0 nodesc norecon k x)
  /\ run0 u Outbound true v = Ok (VTuple [VStr $"2024-02-29"])
  /\ run0 u Inbound true (VTuple [VStr $"2024-02-29"]) = Ok v
  /\ ~ portable env0 p0 (KUnion [Fld p0 (KInteger None None); Fld p0 (KText None None None true)]).
Proof.
  cbv zeta. split; [|split; [split|split; [reflexivity|split; [reflexivity|]]]].
  - assert (Hev : forall P : params -> kind -> Prop, P p0 KBoolean -> P p0 (KEnumeration [VStr $"all"; VStr $"none"] None) ->
       P p0 (KDate None None) -> P p0 (KTuple [Fld p0 (KDate None None)]) -> P p0 (KInteger (Some 5%Z) None) ->
       P p0 (KUnion [Fld p0 KBoolean; Fld p0 (KEnumeration [VStr $"all"; VStr $"none"] None);
                     Fld p0 (KTuple [Fld p0 (KDate None None)]); Fld p0 (KInteger (Some 5%Z) None)]) ->
       throughout env0 P (Fld p0 (KUnion [Fld p0 KBoolean; Fld p0 (KEnumeration [VStr $"all"; VStr $"none"] None);
                     Fld p0 (KTuple [Fld p0 (KDate None None)]); Fld p0 (KInteger (Some 5%Z) None)]))).
    { intros P H1 H2 H3 H4 H5 H6. split; [|discriminate]. constructor; [exact H6|].
      intros g [<-|[<-|[<-|[<-|[]]]]]; (constructor; [assumption|]); intros ? Hg; cbn in Hg; try contradiction.
      destruct Hg as [<-|[]]. constructor; [assumption|intros ? []]. }
    split; [|split]; apply Hev; try exact I; try (repeat split; discriminate).
    + repeat split; try discriminate. intros x [[<-|[<-|[]]]|[]]; reflexivity.
    + split; [reflexivity|]. split; [reflexivity|]. split; [discriminate|]. split.
      * repeat constructor; cbn; try congruence; intros [].
      * repeat first [apply FOP_cons | apply Forall_cons | apply FOP_nil | apply Forall_nil];
          (split; [reflexivity|]); try (left; repeat constructor; fail).
        right. split; [exact I|]. intros w Hi Hn; destruct Hi as [Hi|Hi]; cbn in Hi, Hn;
          repeat match goal with H : exists _, _ |- _ => destruct H end; subst; discriminate.
    + cbn [portable]. repeat first [apply FOP_cons | apply Forall_cons | apply FOP_nil | apply Forall_nil]; cbn [told_apart].
      all: try (left; split; [repeat constructor|reflexivity]; fail).
      all: right; (split; [first [exact I | repeat constructor]|]); intros w Hi Hn; cbn in Hi, Hn;
          repeat match goal with
                 | H : exists _, _ |- _ => destruct H
                 | H : _ /\ _ |- _ => destruct H
                 | H : _ \/ _ |- _ => destruct H
                 end; subst; try discriminate; contradiction.
  - right. split; [discriminate|]. eexists. split; [do 2 right; left; reflexivity|].
    right. split; [discriminate|]. eexists. split; [reflexivity|]. constructor; [|constructor].
    right. split; [discriminate|]. split; [|split; [left; reflexivity|intros _; split; [discriminate|exact I]]].
    left. exists (Date 2024 2 29). split; [reflexivity|]. split; discriminate.
  - intros k x H. inversion H; subst; clear H; [right; exact I|].
    match goal with H : In _ _ |- _ => destruct H as [<-|[<-|[<-|[<-|[]]]]] end.
    1,2,4: match goal with H : meets _ _ _ _ _ |- _ => inversion H; subst; right; exact I end.
    match goal with H : meets _ _ _ _ _ |- _ => inversion H; subst; clear H end; [right; exact I|].
    destruct i as [|[|i]]; cbn in *; try discriminate.
    repeat match goal with H : Some _ = Some _ |- _ => injection H as <- end.
    match goal with H : meets _ _ _ _ _ |- _ => inversion H; subst; clear H end.
    right. exists (Date 2024 2 29). split; [reflexivity|]. split; [|right; cbn; lia]. split; [cbn; lia|].
    exists 29%Z. split; [|cbn; lia]. apply ml_leap. split; [exists 506%Z; reflexivity|]. left. intros [z Hz]. cbn in Hz. lia.
  - cbn [portable]. intros H. inversion H as [|? ? Hp _]; subst. inversion Hp as [|? ? Hq _]; subst.
    destruct Hq as [[[] _]|[_ Hd]]. apply (Hd (VStr $"7")); [exact I|]. exists $"7". reflexivity.
Qed.

(** C34.  A value of a union is returned if, up to the alternative it conforms to, the
    alternatives refuse its type, and that of its serialized form. *)
Theorem C34_union_serialization_round_trip :
  forall E desc recon n p before f after v,
    throughout E well_keyed f -> throughout E (tidy E) f -> throughout E (portable E) f ->
    conforms E n f v -> (forall k x, meets E f v k x -> faithful E desc recon k x) ->
    Forall (defined E) (before ++ f :: after) -> v <> VNone ->
    let refuses ph x g := forall anc, exists e,
      process_gen E desc recon n g false ph true anc x = Raise (XErr e) /\ er_cls e = CInvalidType in
    Forall (refuses Outbound v) before ->
    (forall w, (forall anc, process_gen E desc recon n f false Outbound true anc v = Ok w) -> Forall (refuses Inbound w) before) ->
    exists w,
      (forall anc, process_gen E desc recon n (Fld p (KUnion (before ++ f :: after))) false Outbound true anc v = Ok w)
      /\ (forall anc, process_gen E desc recon n (Fld p (KUnion (before ++ f :: after))) false Inbound true anc w = Ok v).
Proof. exact union_serialization_round_trip. Qed.
Print Assumptions C34_union_serialization_round_trip.

(* Among a number, a date and a text, a date is returned. *)
Example C34_union_example :
  let u := Fld p0 (KUnion ([Fld p0 (KInteger None None)] ++ Fld p0 (KDate None None) :: [Fld p0 (KText None None None true)])) in
  Forall (fun g => forall anc, exists e, process_gen env0 nodesc norecon 5 g false Outbound true anc (VDate (Date 2024 2 29)) = Raise (XErr e)
                                         /\ er_cls e = CInvalidType) [Fld p0 (KInteger None None)]
  /\ Forall (fun g => forall anc, exists e, process_gen env0 nodesc norecon 5 g false Inbound true anc (VStr $"2024-02-29") = Raise (XErr e)
                                         /\ er_cls e = CInvalidType) [Fld p0 (KInteger None None)]
  /\ run0 u Outbound true (VDate (Date 2024 2 29)) = Ok (VStr $"2024-02-29")
  /\ run0 u Inbound true (VStr $"2024-02-29") = Ok (VDate (Date 2024 2 29)).
Proof.
  split; [repeat constructor; intros anc; eexists; split; reflexivity|].
  split; [repeat constructor; intros anc; eexists; split; reflexivity|]. split; reflexivity.
Qed.

(* An object, identified by a name under which it is imported. *)
Example C34_object_example :
  let E := {| e_pre := e_pre env0; e_ext := e_ext env0; e_inst := e_inst env0; e_pattern := e_pattern env0; e_local := e_local env0;
              e_pad := e_pad env0; e_udigit := e_udigit env0; e_uword := e_uword env0; e_ulower := e_ulower env0;
              e_import := fun s => if str_eqb s $"module.seven" then Some (VInt 7) else None;
              e_identify := fun v => match v with VInt 7 => Some $"module.seven" | _ => None end;
              e_undef := e_undef env0; e_str := e_str env0; e_impl := e_impl env0; e_schemas := e_schemas env0;
              e_compile := e_compile env0; e_surrogate := e_surrogate env0; e_identity := e_identity env0; e_repr := e_repr env0 |} in
  let f := Fld p0 (KSequence (Fld p0 KObject) None None false) in
  let v := VList [VInt 7; VNone] in
  (forall k x, meets E f v k x -> faithful E nodesc norecon k x)
  /\ process_gen E nodesc norecon 5 f false Outbound true [] v = Ok (VList [VStr $"module.seven"; VNone])
  /\ process_gen E nodesc norecon 5 f false Inbound true [] (VList [VStr $"module.seven"; VNone]) = Ok v.
Proof.
  cbv zeta. split; [|split; reflexivity]. intros k x H. inversion H; subst; clear H; [right; exact I|].
  match goal with H : In _ _ |- _ => destruct H as [<-|[<-|[]]] end;
    match goal with H : meets _ _ _ _ _ |- _ => inversion H; subst end; [right|left; reflexivity].
  exists $"module.seven". split; [reflexivity|]. right. split; [discriminate|reflexivity].
Qed.

(** C34.  Without these exclusions the claim is false: a time loses its microseconds, a
    conforming list of different decimals, two NaNs, cannot be serialized, the date of a union with a
    text before it comes back as a text, errors come back as other errors, and the name of an object
    that cannot be imported is refused. *)
Theorem C34_serialization_round_trip_refuted :
  (exists t t', t <> t' /\ conforms env0 5 (Fld p0 (KTime None None)) (VTime t)
     /\ exists w, run0 (Fld p0 (KTime None None)) Outbound true (VTime t) = Ok w
                  /\ run0 (Fld p0 (KTime None None)) Inbound true w = Ok (VTime t'))
  /\ (exists l, let f := Fld p0 (KSequence (Fld p0 (KDecimal None None)) None None true) in
        conforms env0 5 f (VList l)
        /\ run0 f Outbound true (VList l) = fails [$"(sequence)"] $"duplicate")
  /\ (exists d s, let f := Fld p0 (KUnion [Fld p0 (KText None None None true); Fld p0 (KDate None None)]) in
        conforms env0 5 f (VDate d)
        /\ run0 f Outbound true (VDate d) = Ok (VStr s) /\ run0 f Inbound true (VStr s) = Ok (VStr s))
  /\ (exists e e' w, e <> e' /\ conforms env0 5 (Fld p0 KError) (VErr e)
        /\ run0 (Fld p0 KError) Outbound true (VErr e) = Ok w /\ run0 (Fld p0 KError) Inbound true w = Ok (VErr e'))
  /\ (exists s, conforms env0 5 (Fld p0 KObject) (VStr s)
        /\ run0 (Fld p0 KObject) Outbound true (VStr s) = Ok (VStr s)
        /\ run0 (Fld p0 KObject) Inbound true (VStr s) = fails [$"(object)"] $"import").
Proof. exact serialization_round_trip_refuted. Qed.
Print Assumptions C34_serialization_round_trip_refuted.
