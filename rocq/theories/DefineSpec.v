(** * Vocabulary for placeholders being defined (C99). *)
From Verif Require Export Define.

(** The last definition of [u] in a program. *)
Fixpoint latest (u : nat) (ops : list op) : option nat :=
  match ops with
  | [] => None
  | Define w f :: rest =>
      match latest u rest with
      | Some g => Some g
      | None => if Nat.eqb w u then Some f else None
      end
  | Construct _ :: rest => latest u rest
  end.

(** How many containers a program constructs. *)
Fixpoint constructed (ops : list op) : nat :=
  match ops with
  | [] => 0
  | Construct _ :: rest => S (constructed rest)
  | Define _ _ :: rest => constructed rest
  end.

(** What must stand where a container was given [s], [before] and [after] being what was done before and
    after its construction: a placeholder defined before is replaced for good; else by its latest definition. *)
Definition due (before after : list op) (s : slot) : slot :=
  match s with
  | SField f => SField f
  | SUndef u =>
      match latest u before with
      | Some f => SField f
      | None => match latest u after with Some f => SField f | None => SUndef u end
      end
  end.
