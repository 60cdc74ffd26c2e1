(** * [base64.urlsafe_b64encode] and [urlsafe_b64decode], used by
    /repo/scheme/fields/binary.py:44-51. *)
From Verif Require Export PyBase.
Open Scope N_scope.

(** URL-safe alphabet: value to character (base64.py [urlsafe_b64encode]: '-' and '_');
    /repo/scheme/fields/binary.py:45. *)
Definition b64_char (v : N) : N :=
  if v <? 26 then 65 + v
  else if v <? 52 then 97 + (v - 26)
  else if v <? 62 then 48 + (v - 52)
  else if v =? 62 then 45 else 95.

(** Character to value after the translation of '-' and '_' done by [urlsafe_b64decode]; the
    characters '+' and '/' are still accepted (binascii table_a2b_base64);
    /repo/scheme/fields/binary.py:51. *)
Definition b64_val (c : N) : option N :=
  if (65 <=? c) && (c <=? 90) then Some (c - 65)
  else if (97 <=? c) && (c <=? 122) then Some (c - 97 + 26)
  else if (48 <=? c) && (c <=? 57) then Some (c - 48 + 52)
  else if (c =? 43) || (c =? 45) then Some 62
  else if (c =? 47) || (c =? 95) then Some 63
  else None.

(** [urlsafe_b64encode(bytes)] (binascii b2a_base64 without newline, translated);
    /repo/scheme/fields/binary.py:45. *)
Fixpoint b64_encode (b : list N) : list N :=
  match b with
  | x :: y :: z :: r =>
      b64_char (x / 4) :: b64_char (x mod 4 * 16 + y / 16)
      :: b64_char (y mod 16 * 4 + z / 64) :: b64_char (z mod 64) :: b64_encode r
  | [x; y] => [b64_char (x / 4); b64_char (x mod 4 * 16 + y / 16); b64_char (y mod 16 * 4); 61]
  | [x] => [b64_char (x / 4); b64_char (x mod 4 * 16); 61; 61]
  | [] => []
  end.

(** binascii [a2b_base64], non strict mode: state is the position in the quad, the left over bits
    and the number of padding characters seen.  Characters outside the alphabet are skipped; a
    padding character only matters from the third position on and ends the data when it completes
    the quad. [None] is binascii.Error.  /repo/scheme/fields/binary.py:51 *)
Fixpoint b64_decode_aux (s : list N) (quad : N) (left : N) (pads : N) : option (list N) :=
  match s with
  | [] => if quad =? 0 then Some [] else None
  | c :: s' =>
      if c =? 61 then
        if (2 <=? quad) && (4 <=? quad + (pads + 1)) then Some []      (* end of data *)
        else b64_decode_aux s' quad left (if 2 <=? quad then pads + 1 else pads)
      else match b64_val c with
           | None => b64_decode_aux s' quad left pads
           | Some v =>
               if quad =? 0 then b64_decode_aux s' 1 v 0
               else if quad =? 1 then
                 match b64_decode_aux s' 2 (v mod 16) 0 with
                 | Some r => Some (left * 4 + v / 16 :: r) | None => None end
               else if quad =? 2 then
                 match b64_decode_aux s' 3 (v mod 4) 0 with
                 | Some r => Some (left * 16 + v / 4 :: r) | None => None end
               else
                 match b64_decode_aux s' 0 0 0 with
                 | Some r => Some (left * 64 + v :: r) | None => None end
           end
  end.

(** [urlsafe_b64decode(bytes)]; [None] is binascii.Error.  /repo/scheme/fields/binary.py:51 *)
Definition b64_decode (s : list N) : option (list N) := b64_decode_aux s 0 0 0.
