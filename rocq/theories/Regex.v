(** * Regular expressions of the package: [re.match] on the fixed patterns of Token, UUID, Email.

    Python's backtracking matcher decides membership of the text in the language of the pattern
    when, as in all the patterns below, the pattern is anchored on both sides; the model decides
    the same membership with derivatives. *)
From Verif Require Export PyBase.
Open Scope N_scope.

(** Patterns, for /repo/scheme/fields/token.py:14, uuid.py:14, email.py:10-18 *)
Inductive re :=
| RNone                         (* no string *)
| REps                          (* empty string *)
| RSet (p : N -> bool)          (* one character *)
| RCat (a b : re)
| RAlt (a b : re)
| RStar (a : re).

(** Does the empty text match?  For [match] at /repo/scheme/fields/token.py:37, uuid.py:30, text.py:87 *)
Fixpoint nullable (r : re) : bool :=
  match r with
  | RNone | RSet _ => false
  | REps | RStar _ => true
  | RCat a b => nullable a && nullable b
  | RAlt a b => nullable a || nullable b
  end.

(** Sequence, simplified; for [match] at /repo/scheme/fields/token.py:37, uuid.py:30, text.py:87 *)
Definition cat (a b : re) : re :=
  match a, b with
  | RNone, _ | _, RNone => RNone
  | REps, _ => b
  | _, REps => a
  | _, _ => RCat a b
  end.

(** Alternative, simplified; for [match] at /repo/scheme/fields/token.py:37, uuid.py:30, text.py:87 *)
Definition alt (a b : re) : re :=
  match a, b with
  | RNone, _ => b
  | _, RNone => a
  | _, _ => RAlt a b
  end.

(** What has to match behind the character [c]; for [match] at /repo/scheme/fields/token.py:37, uuid.py:30,
    text.py:87 *)
Fixpoint deriv (c : N) (r : re) : re :=
  match r with
  | RNone | REps => RNone
  | RSet p => if p c then REps else RNone
  | RCat a b => if nullable a then alt (cat (deriv c a) b) (deriv c b) else cat (deriv c a) b
  | RAlt a b => alt (deriv c a) (deriv c b)
  | RStar a => cat (deriv c a) (RStar a)
  end.

(** Does the whole string belong to the language?
    For [match] at /repo/scheme/fields/token.py:37, uuid.py:30, text.py:87 *)
Fixpoint rmatch (r : re) (s : str) : bool :=
  match s with
  | [] => nullable r
  | c :: s' => rmatch (deriv c r) s'
  end.

(** [re.match('^r$', s)]: without MULTILINE, [$] matches at the end of the text and just before a
    trailing newline.  /repo/scheme/fields/token.py:37, uuid.py:30, text.py:87 *)
Definition rmatch_dollar (r : re) (s : str) : bool :=
  rmatch r s || match rev s with
                | 10 :: t => rmatch r (rev t)
                | _ => false
                end.

(** A character; part of the patterns at /repo/scheme/fields/token.py:14, uuid.py:14, email.py:10-18 *)
Definition rchar (c : N) : re := RSet (N.eqb c).
(** [r+]; part of the patterns at /repo/scheme/fields/email.py:10-18 *)
Definition rplus (r : re) : re := RCat r (RStar r).
(** [r?]; part of the patterns at /repo/scheme/fields/token.py:14, email.py:10-18 *)
Definition ropt (r : re) : re := RAlt r REps.
(** [r{n}]; part of the patterns at /repo/scheme/fields/uuid.py:14 *)
Fixpoint rrep (n : nat) (r : re) : re :=
  match n with O => REps | S n' => RCat r (rrep n' r) end.
(** Between [n] and [n+m] repetitions.  For [{2,6}] at /repo/scheme/fields/email.py:13 *)
Fixpoint rrep_opt (m : nat) (r : re) : re :=
  match m with O => REps | S m' => ropt (RCat r (rrep_opt m' r)) end.

(** A range of characters; part of the patterns at /repo/scheme/fields/uuid.py:14, email.py:10-13 *)
Definition in_rng (a b c : N) : bool := (a <=? c) && (c <=? b).
(** A set of characters; part of the patterns at /repo/scheme/fields/email.py:10-21 *)
Definition in_list (l : list N) (c : N) : bool := existsb (N.eqb c) l.

(** [\w] on text: ASCII letters, digits, underscore; above ASCII the Unicode table [uw].
    /repo/scheme/fields/token.py:14 *)
Definition word_char (uw : N -> bool) (c : N) : bool :=
  if c <? 128 then in_rng 48 57 c || in_rng 65 90 c || in_rng 97 122 c || (c =? 95) else uw c.

(** One segment [\w[-+.\w]*(?<=\w)].  /repo/scheme/fields/token.py:14.  The look-behind forces the
    last character to be a word character. *)
Definition seg_char (uw : N -> bool) (c : N) : bool :=
  word_char uw c || (c =? 45) || (c =? 43) || (c =? 46).
(** A segment, see [seg_char].  /repo/scheme/fields/token.py:14 *)
Definition token_segment (uw : N -> bool) : re :=
  RCat (RSet (word_char uw))
       (ropt (RCat (RStar (RSet (seg_char uw))) (RSet (word_char uw)))).
(** /repo/scheme/fields/token.py:14 *)
Definition token_re (uw : N -> bool) : re :=
  RCat (token_segment uw) (RStar (RCat (rchar 58) (token_segment uw))).

(** /repo/scheme/fields/uuid.py:14 *)
Definition hex_char (c : N) : bool := in_rng 97 102 c || in_rng 48 57 c.
(** The pattern.  /repo/scheme/fields/uuid.py:14 *)
Definition uuid_re : re :=
  RCat (rrep 8 (RSet hex_char)) (RCat (rchar 45)
  (RCat (rrep 4 (RSet hex_char)) (RCat (rchar 45)
  (RCat (rrep 4 (RSet hex_char)) (RCat (rchar 45)
  (RCat (rrep 4 (RSet hex_char)) (RCat (rchar 45)
   (rrep 12 (RSet hex_char))))))))).

(** /repo/scheme/fields/email.py:10-13 *)
Definition alnum_char (c : N) : bool := in_rng 48 57 c || in_rng 97 122 c || in_rng 65 90 c.
(** The characters of the first alternative.  /repo/scheme/fields/email.py:11 *)
Definition atom_char (c : N) : bool := alnum_char c || in_list $"-!#$%&'*+/=?^_`{}|~" c.
(** [a-zA-Z].  /repo/scheme/fields/email.py:13 *)
Definition alpha_char (c : N) : bool := in_rng 97 122 c || in_rng 65 90 c.
(** The characters between quotes.  /repo/scheme/fields/email.py:12 *)
Definition qtext_char (c : N) : bool :=
  in_rng 1 8 c || (c =? 11) || (c =? 12) || in_rng 14 31 c || (c =? 33) || in_rng 35 91 c
  || in_rng 93 127 c.
(** The characters behind a backslash.  /repo/scheme/fields/email.py:12 *)
Definition qpair_char (c : N) : bool :=
  in_rng 1 9 c || (c =? 11) || (c =? 12) || in_rng 14 127 c.
(** What precedes the at sign.  /repo/scheme/fields/email.py:11-13 *)
Definition email_local : re :=
  RAlt (RCat (rplus (RSet atom_char)) (RStar (RCat (rchar 46) (rplus (RSet atom_char)))))
       (RCat (rchar 34)
          (RCat (RStar (RAlt (RSet qtext_char) (RCat (rchar 92) (RSet qpair_char)))) (rchar 34))).
(** [a-zA-Z0-9-].  /repo/scheme/fields/email.py:13 *)
Definition label_char (c : N) : bool := alnum_char c || (c =? 45).
(** What follows the at sign.  /repo/scheme/fields/email.py:13 *)
Definition email_domain : re :=
  RCat (rplus (RCat (rplus (RSet label_char)) (rchar 46)))
       (RCat (rrep 2 (RSet alpha_char)) (rrep_opt 4 (RSet alpha_char))).
(** EMAIL_EXPR.  /repo/scheme/fields/email.py:10-13 *)
Definition email_expr : re := RCat email_local (RCat (rchar 64) email_domain).

(** /repo/scheme/fields/email.py:15 *)
Definition email_re : re := ropt email_expr.
(** /repo/scheme/fields/email.py:18 *)
Definition email_list_re : re := ropt (RCat email_expr (RStar (RCat (rchar 44) email_expr))).
(** /repo/scheme/fields/email.py:16-17 *)
Definition email_extended_re : re :=
  ropt (RAlt (RCat (rchar 34) (RCat (rplus (RSet (fun c => negb (c =? 34)))) (RCat (rchar 34)
               (RCat (rplus (rchar 32)) (RCat (rchar 60) (RCat email_expr (rchar 62)))))))
       (RAlt (RCat (rplus (RSet (fun c => negb (c =? 60)))) (RCat (rplus (rchar 32))
               (RCat (rchar 60) (RCat email_expr (rchar 62)))))
             email_expr)).
