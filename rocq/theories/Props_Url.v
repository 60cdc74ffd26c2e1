(** Property theorems proved in UrlProofs.v (generated by tools/mkprops.py). *)
From Verif Require Import Spec Demo UrlSpec UrlProofs.

(** C61.  A dict of names and values that are texts (not empty, not a keyword, of any characters
    that have an encoding) or clean structures is read back as it was written, in the same order,
    whether or not semicolons separate. *)
Theorem C61_urlencoded_roundtrip :
  forall E semicolons o l,
    NoDup (map fst l) ->
    (forall k v, In (k, v) l -> (exists s, k = VStr s /\ unicode s) /\ form_value E v /\ unicode_value v) ->
    exists t m, url_serialize E (VDict o l) = Ok t
      /\ url_unserialize E semicolons (VStr t) = Ok (VDict false m)
      /\ Forall2 (fun kv kw => fst kw = fst kv /\ reordered (snd kv) (snd kw)) l m.
Proof. exact urlencoded_roundtrip. Qed.
Print Assumptions C61_urlencoded_roundtrip.

Definition l61 := [(VStr $"full name", VStr $"A&B; {x}=100%"); (VStr (233%N :: $"k"), VList [VStr (8364%N :: []); VStr $"b"; VNone])].
Example C61_example :
  url_serialize env0 (VDict false l61) = Ok $"full+name=A%26B%3B+%5C%7Bx%5C%7D%3D100%25&%C3%A9k=%5B%E2%82%AC%2Cb%2Cnull%5D"
  /\ url_unserialize env0 true (VStr $"full+name=A%26B%3B+%5C%7Bx%5C%7D%3D100%25&%C3%A9k=%5B%E2%82%AC%2Cb%2Cnull%5D") = Ok (VDict false l61).
Proof. vm_compute. auto. Qed.
Example C61_meets :
  NoDup (map fst l61)
  /\ forall k v, In (k, v) l61 -> (exists s, k = VStr s /\ unicode s) /\ form_value env0 v /\ unicode_value v.
Proof.
  assert (Hu : forall s, forallb (fun c => (c <? 55296)%N) s = true -> unicode s).
  { intros s Hs c Hc. rewrite forallb_forall in Hs. specialize (Hs c Hc). apply N.ltb_lt in Hs. split; [eapply N.lt_trans; [exact Hs|reflexivity]|].
    intros [H1 _]. apply N.lt_nge in Hs. contradiction. }
  assert (Hp : forall s, s = 8364%N :: [] \/ s = $"b" -> plain_text env0 false s).
  { intros s [->| ->]; (split; [intros c [<-|[]]; cbn; intuition discriminate|]); (split; [intros [n [=]]|]); (split; [vm_compute; intuition discriminate|discriminate]). }
  split; [repeat constructor; cbn; intuition discriminate|].
  intros k v [[= <- <-]|[[= <- <-]|[]]]; (split; [eexists; split; [reflexivity|apply Hu; reflexivity]|]); split.
  - left. eexists. split; [reflexivity|]. split; [discriminate|]. vm_compute. intuition discriminate.
  - constructor. apply Hu. reflexivity.
  - right. split; [|discriminate]. apply clean_list; [|discriminate]. intros v [<-|[<-|[<-|[]]]]; constructor; apply Hp; auto.
  - apply uv_list. intros v [<-|[<-|[<-|[]]]]; constructor; apply Hu; reflexivity.
Qed.

(** C61.  The text written has only the characters allowed in a query. *)
Theorem C61_urlencoded_query_chars :
  forall E o l t c,
    (forall k v, In (k, v) l -> (exists s, k = VStr s /\ unicode s) /\ form_value E v /\ unicode_value v) ->
    url_serialize E (VDict o l) = Ok t -> In c t -> query_char c.
Proof. exact urlencoded_query_chars. Qed.
Print Assumptions C61_urlencoded_query_chars.

Example C61_query_chars_example : url_serialize env0 (VDict false [(VStr $"a b", VStr $"{}")]) = Ok $"a+b=%5C%7B%5C%7D".
Proof. reflexivity. Qed.

(** C61.  Anything but a dict cannot be written, anything but a text cannot be read. *)
Theorem C61_urlencoded_refuses :
  forall E semicolons v,
    (match v with VDict _ _ | VSurr _ _ _ _ => False | _ => True end -> url_serialize E v = py ValueError)
    /\ (match v with VStr _ => False | _ => True end -> url_unserialize E semicolons v = py ValueError).
Proof. exact urlencoded_refuses. Qed.
Print Assumptions C61_urlencoded_refuses.

Example C61_refuses_example : url_serialize env0 (VList []) = py ValueError /\ url_unserialize env0 false (VInt 1) = py ValueError.
Proof. split; reflexivity. Qed.
