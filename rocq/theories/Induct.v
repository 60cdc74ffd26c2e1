(** * Induction principles for fields and values (proof infrastructure; models no code). *)
From Verif Require Import PyVal.

Section FieldInd.
Variable P : field -> Prop.
Hypothesis Hundef : forall n, P (FUndef n).
Hypothesis Hfld : forall p k, (forall g, In g (subfields k) -> P g) -> P (Fld p k).

Fixpoint field_ind' (f : field) : P f.
Proof.
  refine (match f return P f with
          | FUndef n => Hundef n
          | Fld p k => Hfld p k _
          end).
  destruct k as [ | | | | | | | | | | | |value key rk| |item a b u|d s o| | | | |l|l| ];
    cbn [subfields]; try (solve [intros g []]).
  - destruct key as [kf|]; cbn; intros g Hg.
    + destruct Hg as [<-|[<-|[]]]; apply field_ind'.
    + destruct Hg as [<-|[]]; apply field_ind'.
  - intros g [<-|[]]. apply field_ind'.
  - destruct d as [l|on l]; cbn [sdef_fields].
    + induction l as [|[x y] l IH]; cbn; intros g Hg; [destruct Hg|].
      destruct Hg as [<-|Hg]; [apply field_ind' | apply IH, Hg].
    + intros g [<-|Hg]; [apply field_ind'|].
      revert g Hg. induction l as [|[x y] l IH]; cbn; intros g Hg; [destruct Hg|].
      apply in_app_or in Hg. destruct Hg as [Hg|Hg]; [|apply IH, Hg].
      clear IH. revert g Hg. induction y as [|[z w] y IHy]; cbn; intros g Hg; [destruct Hg|].
      destruct Hg as [<-|Hg]; [apply field_ind' | apply IHy, Hg].
  - induction l as [|x l IH]; intros g Hg; [destruct Hg|].
    destruct Hg as [<-|Hg]; [apply field_ind' | apply IH, Hg].
  - induction l as [|x l IH]; intros g Hg; [destruct Hg|].
    destruct Hg as [<-|Hg]; [apply field_ind' | apply IH, Hg].
Qed.
End FieldInd.

(** The immediate subvalues of a value (contents of containers; errors nested in errors). *)
Definition subvals (v : val) : list val :=
  match v with
  | VList l | VTuple l => l
  | VDict _ l | VSurr _ _ _ l => flat_map (fun kv => [fst kv; snd kv]) l
  | VObj _ l => map snd l
  | VErr e => er_errors e ++ match er_structure e with Some s => [s] | None => [] end
  | _ => []
  end.

Section ValInd.
Variable P : val -> Prop.
Hypothesis H : forall v, (forall w, In w (subvals v) -> P w) -> P v.

Fixpoint val_ind' (v : val) : P v.
Proof.
  apply H.
  destruct v as [ | | | | | | | | | |l|l|o l|i l|i s ve l|e|f]; cbn [subvals];
    try (solve [intros w []]).
  - induction l as [|x l IH]; intros w Hw; [destruct Hw|].
    destruct Hw as [<-|Hw]; [apply val_ind' | apply IH, Hw].
  - induction l as [|x l IH]; intros w Hw; [destruct Hw|].
    destruct Hw as [<-|Hw]; [apply val_ind' | apply IH, Hw].
  - induction l as [|[x y] l IH]; cbn; intros w Hw; [destruct Hw|].
    destruct Hw as [<-|[<-|Hw]]; [apply val_ind' | apply val_ind' | apply IH, Hw].
  - induction l as [|[x y] l IH]; cbn; intros w Hw; [destruct Hw|].
    destruct Hw as [<-|Hw]; [apply val_ind' | apply IH, Hw].
  - induction l as [|[x y] l IH]; cbn; intros w Hw; [destruct Hw|].
    destruct Hw as [<-|[<-|Hw]]; [apply val_ind' | apply val_ind' | apply IH, Hw].
  - destruct e as [c l i s h]. cbn. intros w Hw. apply in_app_or in Hw.
    destruct Hw as [Hw|Hw].
    + revert w Hw. induction l as [|x l IH]; intros w Hw; [destruct Hw|].
      destruct Hw as [<-|Hw]; [apply val_ind' | apply IH, Hw].
    + destruct s as [s|]; [|destruct Hw].
      destruct Hw as [<-|[]]. apply val_ind'.
Qed.
End ValInd.
