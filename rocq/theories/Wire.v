(** Well-formed CBOR (RFC 8949 section 3), heads of any width: what a receiver may accept.

    Specification only; nothing here is taken from /repo or from the model's decoders. *)
From Verif Require Import Bytes Rfc.

(** Number written by bytes in network order. *)
Fixpoint number (b : bytes) : Z :=
  match b with [] => 0 | x :: r => x * 256 ^ zlen r + number r end.
(** [h] is a head of major type [major] with argument [n]. *)
Definition is_head (major n : Z) (h : bytes) : Prop :=
  exists a r, h = (2 ^ 5 * major + a) :: r /\
    ((r = [] /\ a = n /\ 0 <= n < 24) \/
     (exists k, 0 <= k <= 3 /\ a = 24 + k /\ zlen r = 2 ^ k /\ number r = n)).

Inductive written : item -> bytes -> Prop :=
| WNum v h : is_head (if v <? 0 then 1 else 0) (if v <? 0 then -1 - v else v) h -> written (Num v) h
| WBstr b h : is_head 2 (zlen b) h -> written (Bstr b) (h ++ b)
| WTstr b h : is_head 3 (zlen b) h -> written (Tstr b) (h ++ b)
| WArr l h b : is_head 4 (zlen l) h -> written_seq l b -> written (Arr l) (h ++ b)
| WMap l h b : is_head 5 (zlen l) h -> written_pairs l b -> written (Map l) (h ++ b)
with written_seq : list item -> bytes -> Prop :=
| WNil : written_seq [] []
| WCons i l a b : written i a -> written_seq l b -> written_seq (i :: l) (a ++ b)
with written_pairs : list (item * item) -> bytes -> Prop :=
| WPNil : written_pairs [] []
| WPCons k v l a b c : written k a -> written v b -> written_pairs l c ->
    written_pairs ((k, v) :: l) (a ++ b ++ c).
