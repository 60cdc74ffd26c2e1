(** * The URL encoded format, with the parts of [urllib.parse] it uses. *)
From Verif Require Export StText.

(** ** Quoting *)

(** UTF-8 of one character; [None] is UnicodeEncodeError (surrogates, and numbers beyond Unicode,
    which are not Python characters).  Used through [urlencode].
    /repo/scheme/formats/urlencoded.py:1-4, 29 *)
Definition utf8 (c : N) : option (list N) :=
  if (c <? 128)%N then Some [c]
  else if (c <? 2048)%N then Some [(192 + c / 64)%N; (128 + c mod 64)%N]
  else if ((55296 <=? c) && (c <? 57344))%N then None
  else if (c <? 65536)%N then Some [(224 + c / 4096)%N; (128 + c / 64 mod 64)%N; (128 + c mod 64)%N]
  else if (c <? 1114112)%N then
    Some [(240 + c / 262144)%N; (128 + c / 4096 mod 64)%N; (128 + c / 64 mod 64)%N; (128 + c mod 64)%N]
  else None.

(** A hexadecimal digit, upper case.  Used through [urlencode] (/repo/scheme/formats/urlencoded.py:29). *)
Definition hex_digit (n : N) : N := if (n <? 10)%N then (48 + n)%N else (55 + n)%N.

(** The characters [urllib.parse.quote] leaves alone: letters, digits and [_.-~].
    Used through [urlencode] (/repo/scheme/formats/urlencoded.py:29). *)
Definition url_safe (c : N) : bool :=
  is_digit c || ((65 <=? c) && (c <=? 90))%N || ((97 <=? c) && (c <=? 122))%N
  || (c =? 95)%N || (c =? 46)%N || (c =? 45)%N || (c =? 126)%N.

(** [%XX].  Used through [urlencode] (/repo/scheme/formats/urlencoded.py:29). *)
Definition quote_byte (b : N) : str := [37%N; hex_digit (b / 16); hex_digit (b mod 16)].

(** [urllib.parse.quote_plus(s)]; [None] is UnicodeEncodeError.
    Used through [urlencode] (/repo/scheme/formats/urlencoded.py:29). *)
Fixpoint quote_plus (s : str) : option str :=
  match s with
  | [] => Some []
  | c :: s' =>
      match (if url_safe c then Some [c] else if (c =? 32)%N then Some [43%N]
             else option_map (flat_map quote_byte) (utf8 c)), quote_plus s' with
      | Some a, Some b => Some (a ++ b)
      | _, _ => None
      end
  end.

(** [urllib.parse.urlencode(data)] of pairs of texts.  A text that has no UTF-8 raises
    UnicodeEncodeError, which is a ValueError.  /repo/scheme/formats/urlencoded.py:29 *)
Fixpoint url_pairs (l : list (str * str)) : res (list str) :=
  match l with
  | [] => Ok []
  | (k, v) :: l' =>
      match quote_plus k, quote_plus v with
      | Some a, Some b => do r <- url_pairs l'; Ok ((a ++ $"=" ++ b) :: r)
      | _, _ => py ValueError
      end
  end.

(** ** Unquoting *)

(** The value of a hexadecimal digit, of either case.  Used through [parse_qsl]
    (/repo/scheme/formats/urlencoded.py:37). *)
Definition unhex (c : N) : option N :=
  if is_digit c then Some (c - 48)%N
  else if ((65 <=? c) && (c <=? 70))%N then Some (c - 55)%N
  else if ((97 <=? c) && (c <=? 102))%N then Some (c - 87)%N
  else None.

(** The lead bytes of UTF-8: number of continuation bytes, bits of the lead byte, range of the first
    continuation byte.  Used through [parse_qsl] (/repo/scheme/formats/urlencoded.py:37). *)
Definition lead (b : N) : option (N * N * N * N) :=
  if (b <? 194)%N then None
  else if (b <? 224)%N then Some (1, b - 192, 128, 191)%N
  else if (b =? 224)%N then Some (2, 0, 160, 191)%N
  else if (b =? 237)%N then Some (2, 13, 128, 159)%N
  else if (b <? 240)%N then Some (2, b - 224, 128, 191)%N
  else if (b =? 240)%N then Some (3, 0, 144, 191)%N
  else if (b <? 244)%N then Some (3, b - 240, 128, 191)%N
  else if (b =? 244)%N then Some (3, 4, 128, 143)%N
  else None.

(** [bytes.decode('utf-8', 'replace')]: each maximal part of an ill-formed sequence becomes U+FFFD.
    Used through [parse_qsl] (/repo/scheme/formats/urlencoded.py:37). *)
Fixpoint decode (bs : list N) : str :=
  match bs with
  | [] => []
  | b :: r =>
      if (b <? 128)%N then b :: decode r
      else
        match lead b with
        | None => 65533%N :: decode r
        | Some (k, v, lo, hi) =>
            match r with
            | [] => [65533%N]
            | c :: r1 =>
                if negb ((lo <=? c) && (c <=? hi))%N then 65533%N :: decode r
                else if (k =? 1)%N then (v * 64 + (c - 128))%N :: decode r1
                else
                  match r1 with
                  | [] => [65533%N]
                  | d :: r2 =>
                      if negb ((128 <=? d) && (d <=? 191))%N then 65533%N :: decode r1
                      else if (k =? 2)%N then ((v * 64 + (c - 128)) * 64 + (d - 128))%N :: decode r2
                      else
                        match r2 with
                        | [] => [65533%N]
                        | e :: r3 =>
                            if negb ((128 <=? e) && (e <=? 191))%N then 65533%N :: decode r2
                            else (((v * 64 + (c - 128)) * 64 + (d - 128)) * 64 + (e - 128))%N :: decode r3
                        end
                  end
            end
        end
  end.

(** [urllib.parse.unquote(s)]: the runs of ASCII characters are turned to bytes ([%XX] is a byte) and
    decoded, other characters stay.  [acc] holds the bytes of the current run, last first; [skip]
    characters belong to the last [%XX].
    Used through [parse_qsl] (/repo/scheme/formats/urlencoded.py:37). *)
Definition percent (s : str) : option N :=
  match s with
  | c :: a :: b :: _ =>
      if (c =? 37)%N then match unhex a, unhex b with Some x, Some y => Some (16 * x + y)%N | _, _ => None end
      else None
  | _ => None
  end.
(** [unquote_plus] behind [parse_qsl].  /repo/scheme/formats/urlencoded.py:32-44 *)
Fixpoint unquote (skip : nat) (acc : list N) (s : str) : str :=
  match s with
  | [] => decode (rev acc)
  | c :: s' =>
      match skip with
      | S k => unquote k acc s'
      | O =>
          match percent s with
          | Some b => unquote 2 (b :: acc) s'
          | None => if (c <? 128)%N then unquote 0 (c :: acc) s'
                    else decode (rev acc) ++ c :: unquote 0 [] s'
          end
      end
  end.

(** [s.replace('+', ' ')].  Used through [parse_qsl] (/repo/scheme/formats/urlencoded.py:37). *)
Definition plus_spaces (s : str) : str := map (fun c => if (c =? 43)%N then 32%N else c) s.

(** [s.split('=', 1)]; [None] when there is no equals sign.  Used through [parse_qsl]
    (/repo/scheme/formats/urlencoded.py:37). *)
Fixpoint split_equals (s : str) : option (str * str) :=
  match s with
  | [] => None
  | c :: s' => if (c =? 61)%N then Some ([], s')
               else match split_equals s' with Some (a, b) => Some (c :: a, b) | None => None end
  end.

(** [urllib.parse.parse_qsl(s)]: pieces without equals sign and empty values are left out.  Up to Python
    3.9 semicolons separate like ampersands ([semicolons]).
    /repo/scheme/formats/urlencoded.py:37 *)
Definition parse_qsl (semicolons : bool) (s : str) : list (str * str) :=
  flat_map
    (fun piece =>
       match split_equals piece with
       | None | Some (_, []) => []
       | Some (k, v) => [(unquote 0 [] (plus_spaces k), unquote 0 [] (plus_spaces v))]
       end)
    (flat_map (fun part => if semicolons then split_on 59 part else [part]) (split_on 38 s)).

(** ** The format *)
Section UrlEncoded.
Context (E : env).

(** [UrlEncoded.serialize]; the names of a dict are strings or numbers here.
    /repo/scheme/formats/urlencoded.py:20-29 *)
Definition url_serialize (content : val) : res str :=
  match content with
  | VDict _ l | VSurr _ _ _ l =>
      do data <- (fix go (l : list (val * val)) : res (list (str * str)) :=
                    match l with
                    | [] => Ok []
                    | (k, x) :: l' => do t <- st_serialize E x; do r <- go l'; Ok ((text_of E k, t) :: r)
                    end) l;
      do parts <- url_pairs data;
      Ok (join $"&" parts)
  | _ => py ValueError
  end.

(** The loop of [UrlEncoded.unserialize]; the values are not empty, and read like structured text.
    /repo/scheme/formats/urlencoded.py:36-44 *)
Fixpoint url_read (l : list (str * str)) (data : list (val * val)) : res (list (val * val)) :=
  match l with
  | [] => Ok data
  | (k, t) :: l' => do v <- st_unserialize E false t; url_read l' (dset (e_local E) (VStr k) v data)
  end.

(** [UrlEncoded.unserialize].  /repo/scheme/formats/urlencoded.py:31-44 *)
Definition url_unserialize (semicolons : bool) (content : val) : res val :=
  match content with
  | VStr s => do data <- url_read (parse_qsl semicolons s) []; Ok (VDict false data)
  | _ => py ValueError
  end.

End UrlEncoded.
