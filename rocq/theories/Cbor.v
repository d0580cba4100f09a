(** The zcbor primitives the generated CBOR code calls.

    zcbor (0.8.1) is a dependency and is not part of /repo; what follows is the
    behaviour this development assumes of it (trusted base, see DESIGN.md).  The
    generated code in /repo/backends/cbor/src is modelled in CborGen.v. *)
From Verif Require Import Bytes.

(** ** Encoding *)

(** Number of extra bytes of the shortest head for argument [v]. *)
Definition head_extra (v : Z) : Z :=
  if v <? 24 then 0 else if v <? 256 then 1 else if v <? 65536 then 2
  else if v <? 2 ^ 32 then 4 else 8.

(** Shortest-form head: major type [maj], argument [v]. *)
Definition enc_head (maj v : Z) : bytes :=
  if v <? 24 then [maj * 32 + v]
  else if v <? 256 then [maj * 32 + 24; v]
  else if v <? 65536 then (maj * 32 + 25) :: be 2 v
  else if v <? 2 ^ 32 then (maj * 32 + 26) :: be 4 v
  else (maj * 32 + 27) :: be 8 v.

(** zcbor_int32_encode / zcbor_uint32_put. *)
Definition enc_int (v : Z) : bytes :=
  if v <? 0 then enc_head 1 (-1 - v) else enc_head 0 v.
(** zcbor_bstr_encode / zcbor_tstr_encode. *)
Definition enc_bstr (b : bytes) : bytes := enc_head 2 (zlen b) ++ b.
Definition enc_tstr (b : bytes) : bytes := enc_head 3 (zlen b) ++ b.

(** zcbor_entry_function for encoding: succeeds iff everything fits [cap] bytes. *)
Definition fits (cap : Z) (b : bytes) : option bytes :=
  if zlen b <=? cap then Some b else None.

(** ** Decoding *)

(** Decoder state: remaining element count of the innermost list/map, remaining payload. *)
Record dst := DS { d_ec : Z; d_rest : bytes }.

(** [struct zcbor_string] filled by a decoder: claimed length, and the pointer as the
    bytes that are readable from it ([None] = NULL). *)
Record zstr := ZS { zs_len : Z; zs_ptr : option bytes }.
Definition zstr0 : zstr := ZS 0 None.
Definition zstr_of (b : bytes) : zstr := ZS (zlen b) (Some b).

(** Major type of the next item (INITIAL_CHECKS: payload not exhausted). *)
Definition next_major (s : dst) : option Z :=
  match d_rest s with [] => None | b :: _ => Some (b / 32) end.

(** value_extract: argument of the next head, whether it is in shortest form, next state.
    Indefinite lengths (additional information 31) are rejected. *)
Definition value_extract_raw (maxb : Z) (s : dst) : option (Z * bool * dst) :=
  if d_ec s <=? 0 then None else
  match d_rest s with
  | [] => None
  | b :: r =>
    let ai := b mod 32 in
    if ai <? 24 then Some (ai, true, DS (d_ec s - 1) r)
    else if 27 <? ai then None
    else
      let n := 2 ^ (ai - 24) in
      if maxb <? n then None
      else if zlen r <? n then None
      else let v := unbe (take n r) in
           Some (v, head_extra v =? n, DS (d_ec s - 1) (drop n r))
  end.

Definition value_extract (canon : bool) (maxb : Z) (s : dst) : option (Z * dst) :=
  match value_extract_raw maxb s with
  | Some (v, short, s') => if canon && negb short then None else Some (v, s')
  | None => None
  end.

(** zcbor_int32_decode. *)
Definition dec_int32 (canon : bool) (s : dst) : option (Z * dst) :=
  match next_major s with
  | Some m =>
    if (m =? 0) || (m =? 1) then
      match value_extract canon 4 s with
      | Some (v, s') => if v <? 2 ^ 31 then Some (if m =? 0 then v else -1 - v, s') else None
      | None => None
      end
    else None
  | None => None
  end.

(** zcbor_uint32_expect. *)
Definition expect_uint (canon : bool) (k : Z) (s : dst) : option dst :=
  match next_major s with
  | Some m =>
    if m =? 0 then
      match value_extract canon 4 s with
      | Some (v, s') => if v =? k then Some s' else None
      | None => None
      end
    else None
  | None => None
  end.

(** zcbor_bool_expect (true). *)
Definition expect_true (s : dst) : option dst :=
  if d_ec s <=? 0 then None else
  match d_rest s with
  | b :: r => if b =? 245 then Some (DS (d_ec s - 1) r) else None
  | [] => None
  end.

(** zcbor_bstr_decode / zcbor_tstr_decode with the contents the result structure has
    afterwards even when decoding fails: the length is stored before it is checked
    against the payload, the pointer before the overflow check. *)
Definition dec_str_p (canon : bool) (maj : Z) (old : zstr) (s : dst) : bool * zstr * dst :=
  match next_major s with
  | Some m =>
    if m =? maj then
      match value_extract_raw 8 s with
      | Some (v, short, s') =>
        if canon && negb short then (false, ZS v (zs_ptr old), s)
        else if zlen (d_rest s') <? v then (false, ZS v (Some (d_rest s')), s)
        else (true, ZS v (Some (d_rest s')), DS (d_ec s') (drop v (d_rest s')))
      | None => (false, old, s)
      end
    else (false, old, s)
  | None => (false, old, s)
  end.

(** Same, as used where a failure discards the result: the bytes of the string. *)
Definition dec_str (canon : bool) (maj : Z) (s : dst) : option (bytes * dst) :=
  match dec_str_p canon maj zstr0 s with
  | (true, ZS v (Some r), s') => Some (take v r, s')
  | _ => None
  end.
Definition dec_bstr (canon : bool) := dec_str canon 2.
Definition dec_tstr (canon : bool) := dec_str canon 3.

(** zcbor_list_start_decode / zcbor_map_start_decode: element count of the enclosing
    level, state inside. *)
Definition list_start (canon : bool) (s : dst) : option (Z * dst) :=
  match next_major s with
  | Some m =>
    if m =? 4 then
      match value_extract canon 8 s with
      | Some (n, s') => Some (d_ec s', DS n (d_rest s'))
      | None => None
      end
    else None
  | None => None
  end.
Definition map_start (canon : bool) (s : dst) : option (Z * dst) :=
  match next_major s with
  | Some m =>
    if m =? 5 then
      match value_extract canon 8 s with
      | Some (n, s') => Some (d_ec s', DS (2 * n) (d_rest s'))
      | None => None
      end
    else None
  | None => None
  end.
(** zcbor_list_end_decode / zcbor_map_end_decode. *)
Definition list_end (outer : Z) (s : dst) : option dst :=
  if d_ec s =? 0 then Some (DS outer (d_rest s)) else None.

(** zcbor_multi_decode: up to [max] elements; the count reached, and success iff it is
    at least [min]. *)
Fixpoint multi_loop {A} (max : nat) (f : dst -> option (A * dst)) (s : dst) : list A * dst :=
  match max with
  | O => ([], s)
  | S m =>
    match f s with
    | Some (a, s') => let (l, s'') := multi_loop m f s' in (a :: l, s'')
    | None => ([], s)
    end
  end.
Definition multi {A} (min max : nat) (f : dst -> option (A * dst)) (s : dst)
  : bool * list A * dst :=
  let (l, s') := multi_loop max f s in
  (Nat.leb min (length l), l, s').
