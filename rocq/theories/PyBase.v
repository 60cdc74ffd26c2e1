(** * Basic Python notions used by every other file of the model.

    Simplifications made here:
    - a Python [str] is the list of its code points ([str]), [bytes] the list of its byte values;
    - only the class of an exception is kept, not its message. *)
From Coq Require String Ascii.
From Coq Require Export List ZArith NArith Bool Lia.
From Coq Require Import ZifyBool ZifyN ZifyNat.
Export ListNotations String.StringSyntax.
Open Scope list_scope.

(** Code-point strings.  /repo/scheme/util.py:16-19 ([string] is [str] on Python 3). *)
Definition str := list N.

(** Literals of the model: ASCII text as code points (no counterpart in /repo; notation only). *)
Definition lit (s : String.string) : str := map Ascii.N_of_ascii (String.list_ascii_of_string s).
Delimit Scope string_scope with string.
Notation "$ s" := (lit s%string) (at level 1, format "$ s").

(** Equality of two strings (Python [==] on [str]; used wherever /repo compares names, e.g.
    /repo/scheme/fields/structure.py:409). *)
Fixpoint str_eqb (a b : str) : bool :=
  match a, b with
  | [], [] => true
  | x :: a', y :: b' => N.eqb x y && str_eqb a' b'
  | _, _ => false
  end.

(** Python exception classes that can be observed, other than structural errors.
    /repo/scheme/exceptions.py:9-32 for the scheme ones; the others are builtins or stdlib. *)
Inductive pyexc :=
| TypeError | ValueError | AttributeError | KeyError | IndexError | OverflowError
| ImportError | NameError | NotImplementedError | RecursionError | InvalidOperation
| BinasciiError | UnicodeError | IOError
| CannotDescribeError | CannotExtractError | CannotFilterError | CannotInterpolateError
| FieldExcludedError | UndefinedFieldError | UndefinedParameterError
| OtherError (n : nat).

(** The three classes of structural errors: [StructuralError], [ValidationError],
    [InvalidTypeError].  /repo/scheme/exceptions.py:34, 203, 211. *)
Inductive ecls := CStructural | CValidation | CInvalidType.

(** Phases of processing.  /repo/scheme/field.py:13-14. *)
Inductive phase := Inbound | Outbound.

(** [phase == INBOUND], [phase == OUTBOUND].  /repo/scheme/field.py:452, 469 *)
Definition phase_eqb (a b : phase) : bool :=
  match a, b with Inbound, Inbound | Outbound, Outbound => true | _, _ => false end.

(** Python whitespace as recognised by [str.strip()], [str.isspace()] and [\s] in [re] on text
    (CPython unicodetype_db.h).  Used by /repo/scheme/fields/text.py:69,
    /repo/scheme/interpolation.py:15, /repo/scheme/util.py:120. *)
Definition is_space (c : N) : bool :=
  ((9 <=? c)%N && (c <=? 13)%N) || ((28 <=? c)%N && (c <=? 32)%N) || (c =? 133)%N || (c =? 160)%N
  || (c =? 5760)%N || ((8192 <=? c)%N && (c <=? 8202)%N) || (c =? 8232)%N || (c =? 8233)%N
  || (c =? 8239)%N || (c =? 8287)%N || (c =? 12288)%N.

(** ASCII whitespace: [string.whitespace] (/repo/scheme/fields/email.py:21) and [bytes.strip()]. *)
Definition is_ascii_space (c : N) : bool := ((9 <=? c)%N && (c <=? 13)%N) || (c =? 32)%N.

(** [s.lstrip(chars)]: drop the longest prefix of characters satisfying [p].
    Used at /repo/scheme/formats/yaml.py:92, 115 and in [strip]. *)
Fixpoint lstrip (p : N -> bool) (s : str) : str :=
  match s with
  | [] => []
  | c :: s' => if p c then lstrip p s' else s
  end.

(** [s.rstrip(chars)].  Used at /repo/scheme/util.py:202 and in [strip]. *)
Fixpoint rstrip (p : N -> bool) (s : str) : str :=
  match s with
  | [] => []
  | c :: s' => match rstrip p s' with
               | [] => if p c then [] else [c]
               | r => c :: r
               end
  end.

(** [s.strip(chars)]: /repo/scheme/fields/text.py:69, /repo/scheme/fields/email.py:63. *)
Definition strip (p : N -> bool) (s : str) : str := rstrip p (lstrip p s).

(** [s.split(sep)] for a one character separator: /repo/scheme/fields/map.py:57 and others. *)
Fixpoint split_on (sep : N) (s : str) : list str :=
  match s with
  | [] => [[]]
  | c :: s' =>
      if N.eqb c sep then [] :: split_on sep s'
      else match split_on sep s' with
           | [] => [[c]]
           | h :: t => (c :: h) :: t
           end
  end.

(** [sep.join(parts)].
    Used at /repo/scheme/util.py:118, 161, 202, /repo/scheme/formats/structuredtext.py:37, 42 and
    others. *)
Fixpoint join (sep : str) (parts : list str) : str :=
  match parts with
  | [] => []
  | [p] => p
  | p :: rest => p ++ sep ++ join sep rest
  end.

(** [s.count(c)] for a single character: /repo/scheme/fields/token.py:41. *)
Fixpoint count_char (c : N) (s : str) : nat :=
  match s with
  | [] => 0
  | x :: s' => (if N.eqb x c then 1 else 0) + count_char c s'
  end.

(** [len] of a sequence as an unbounded integer.
    Used at /repo/scheme/fields/text.py:72-83, /repo/scheme/fields/sequence.py:178-186 and others. *)
Definition zlen {A} (l : list A) : Z := Z.of_nat (length l).

(** Association lists with string keys: a [dict] whose keys are [str]
    (/repo/scheme/fields/structure.py: [self.structure]). *)
Fixpoint aget {A} (k : str) (l : list (str * A)) : option A :=
  match l with
  | [] => None
  | (k', a) :: l' => if str_eqb k k' then Some a else aget k l'
  end.

(** [d[k] = a] on such a dict: replace in place, else append.
    Used at /repo/scheme/fields/structure.py:69-75 and others. *)
Fixpoint aset {A} (k : str) (a : A) (l : list (str * A)) : list (str * A) :=
  match l with
  | [] => [(k, a)]
  | (k', a') :: l' => if str_eqb k k' then (k', a) :: l' else (k', a') :: aset k a l'
  end.

(** [del d[k]] on such a dict.  Used at /repo/scheme/fields/structure.py:72, 456 *)
Fixpoint adel {A} (k : str) (l : list (str * A)) : list (str * A) :=
  match l with
  | [] => []
  | (k', a') :: l' => if str_eqb k k' then adel k l' else (k', a') :: adel k l'
  end.

(** [k in names] for a list or set of strings.
    Used at /repo/scheme/util.py:173, /repo/scheme/fields/definition.py:56 and others. *)
Definition smem (k : str) (l : list str) : bool := existsb (str_eqb k) l.
