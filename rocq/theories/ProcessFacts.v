(** * Basic facts about [process] (proofs only; no model content). *)
From Verif Require Import PyBaseFacts Induct Process.

Lemma bind_Ok {A B} (r : res A) (f : A -> res B) b :
  bind r f = Ok b <-> exists a, r = Ok a /\ f a = Ok b.
Proof.
  destruct r as [a|x]; cbn; split.
  - intros H. exists a. auto.
  - intros [a' [H1 H2]]. injection H1 as ->. exact H2.
  - discriminate.
  - intros [a' [H1 _]]. discriminate.
Qed.

Lemma bind_Raise {A B} (r : res A) (f : A -> res B) x :
  bind r f = Raise x <-> r = Raise x \/ exists a, r = Ok a /\ f a = Raise x.
Proof.
  destruct r as [a|y]; cbn; split.
  - intros H. right. exists a. auto.
  - intros [H|[a' [H1 H2]]]; [discriminate|]. injection H1 as ->. exact H2.
  - intros H. left. congruence.
  - intros [H|[a' [H1 _]]]; congruence.
Qed.

Section PF.
Variable E : env.
Variable desc : field -> res val.
Variable recon : val -> res field.

Notation proc := (process_gen E desc recon).

(** How schemas found at run time are processed at fuel [n]. *)
Definition sub_of (n : nat) : field -> procfun :=
  fun g ph ser anc v => match n with
                        | O => py RecursionError
                        | S m => proc m g false ph ser anc v
                        end.

Lemma process_Fld n p k partial :
  proc n (Fld p k) partial =
  process_body E desc recon (sub_of n) p (kmap (fun g => (g, proc n g false)) k) partial.
Proof. destruct n; reflexivity. Qed.

Lemma process_FUndef n i partial ph ser anc v :
  proc n (FUndef i) partial ph ser anc v =
  match e_undef E i with
  | Some (Fld p k) =>
      match n with
      | O => py RecursionError
      | S m => proc m (Fld p k) partial ph ser anc v
      end
  | _ => py AttributeError
  end.
Proof. destruct n; reflexivity. Qed.

End PF.

(** ** Equality on values *)

Lemma vmem_r_none L l : vmem_r L VNone l = Ok (vmem L VNone l).
Proof.
  induction l as [|x l IH]; [reflexivity|]. cbn.
  unfold veq_r. cbn. rewrite andb_false_r. cbn.
  destruct (veq L x VNone) eqn:Hx; cbn; [reflexivity|exact IH].
Qed.

Lemma veq_none_r L v : veq L v VNone = is_none v.
Proof. destruct v; try reflexivity. Qed.

Lemma is_null_none L p ig anc :
  is_null L p ig anc VNone = if p_nonnull p then verr anc $"nonnull" else Ok true.
Proof.
  unfold is_null. destruct ig as [l|]; cbn; [rewrite vmem_r_none; cbn|]; reflexivity.
Qed.

Lemma is_null_some L p anc v :
  v <> VNone -> is_null L p None anc v = Ok false.
Proof.
  intros Hv. unfold is_null. cbn. rewrite orb_false_r.
  destruct v; cbn; congruence.
Qed.
