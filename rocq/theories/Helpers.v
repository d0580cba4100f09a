(** helpers/src/edhoc_helpers.c.  A buffer is its bytes; [edhoc_message_ptr] is an offset into
    it; [inr] is undefined behaviour. *)
From Verif Require Import Monad.

(** 55-77 [edhoc_connection_id_equal]. *)
Definition connection_id_equal (a b : option conn_id) : bool :=
  match a, b with
  | Some a, Some b =>
    if negb (cid_type a =? cid_type b) then false
    else if cid_type a =? CID_INT then cid_int a =? cid_int b
    else if cid_type a =? CID_BSTR then
      (zlen (cid_bstr a) =? zlen (cid_bstr b)) && beqb (cid_bstr a) (cid_bstr b)
    else false
  | _, _ => false
  end.

(** helpers/include/edhoc_helpers.h 37-46 [struct edhoc_prepended_fields]. *)
Record pfields := PF { pf_buf : option bytes; pf_size : Z; pf_off : option Z; pf_msize : Z }.

(** 81-105 [edhoc_prepend_flow]. *)
Definition prepend_flow (p : pfields) : (Z * pfields) + ub :=
  match pf_buf p with
  | None => inl (E_INVALID_ARG, p)
  | Some b =>
    if pf_size p <? 1 then inl (E_TOO_SMALL, p)
    else if zlen b <? 1 then inr UbWrite
    else inl (OK, PF (Some (blit b [245])) (pf_size p) (Some 1) (pf_size p - 1))
  end.

Section Cid.
Context {E : env}.

(** 107-175 [edhoc_prepend_connection_id]. *)
Definition prepend_connection_id (p : pfields) (i : option conn_id) : (Z * pfields) + ub :=
  match pf_buf p, i with
  | Some b, Some i =>
    if pf_size p =? 0 then inl (E_TOO_SMALL, p)
    else if cid_type i =? CID_INT then
      if zlen b <? 1 then inr UbWrite
      else inl (OK, PF (Some (blit b [u8 (cid_int i)])) (pf_size p) (Some 1) (pf_size p - 1))
    else if cid_type i =? CID_BSTR then
      if (zlen (cid_bstr i) =? 0) || (cf_max_cid <? zlen (cid_bstr i))
      then inl (E_INVALID_ARG, p)
      else match fits (pf_size p) (enc_bstr (cid_bstr i)) with
           | None => inl (E_CBOR, p)
           | Some e =>
             if zlen b <? zlen e then inr UbWrite
             else inl (OK, PF (Some (blit b e)) (pf_size p) (Some (zlen e))
                              (pf_size p - zlen e))
           end
    else inl (E_INVALID_ARG, p)
  | _, _ => inl (E_INVALID_ARG, p)
  end.

(** 177-233 [edhoc_prepend_recalculate_size].  The sum is on size_t. *)
Definition prepend_recalculate_size (p : pfields) : Z * pfields :=
  match pf_buf p, pf_off p with
  | Some b, Some o =>
    if pf_size p =? 0 then (E_INVALID_ARG, p)
    else if pf_msize p =? 0 then (E_INVALID_ARG, p)
    else if o <? 0 then (E_INVALID_ARG, p)
    else if pf_size p <? o then (E_INVALID_ARG, p)
    else let total := (o + pf_msize p) mod 2 ^ 64 in
         if pf_size p <? total then (E_TOO_SMALL, p)
         else (OK, PF (pf_buf p) total (pf_off p) (pf_msize p))
  | _, _ => (E_INVALID_ARG, p)
  end.

(** helpers/include/edhoc_helpers.h 51-67 [struct edhoc_extracted_fields]. *)
Record efields := EX { ex_buf : option bytes; ex_size : Z; ex_off : option Z; ex_msize : Z;
                       ex_fwd : bool; ex_rev : bool; ex_cid : conn_id }.

(** 235-268 [edhoc_extract_flow_info]. *)
Definition extract_flow_info (x : efields) : (Z * efields) + ub :=
  match ex_buf x with
  | None => inl (OK, EX None (ex_size x) None 0 false (ex_size x =? 0) (ex_cid x))
  | Some b =>
    if 1 <? ex_size x then
      match b with
      | [] => inr UbRead
      | h :: _ =>
        if h =? 245
        then inl (OK, EX (Some b) (ex_size x) (Some 1) (ex_size x - 1) true false (ex_cid x))
        else inl (OK, EX (Some b) (ex_size x) None 0 false false (ex_cid x))
      end
    else inl (OK, EX (Some b) (ex_size x) None 0 false false (ex_cid x))
  end.

(** 270-329 [edhoc_extract_connection_id].  The identifier is cleared first. *)
Definition extract_connection_id (x : efields) : (Z * efields) + ub :=
  match ex_buf x with
  | None => inl (E_INVALID_ARG, x)
  | Some b =>
    if ex_size x =? 0 then inl (E_INVALID_ARG, x)
    else if zlen b <? ex_size x then inr UbRead
    else
    let payload := take (ex_size x) b in
    let upd c o n := EX (ex_buf x) (ex_size x) o n (ex_fwd x) (ex_rev x) c in
    match dec_cidv cf_canon (DS 1 payload) with
    | None => inl (E_CBOR, upd cid0 (ex_off x) (ex_msize x))
    | Some (v, s) =>
      let len := zlen payload - zlen (d_rest s) in
      match v with
      | CidInt _ =>
        inl (OK, upd (CID CID_INT (i8 (nth 0 b 0)) []) (Some len) (ex_size x - len))
      | CidBstr c =>
        if cf_max_cid <? zlen c then inl (E_TOO_SMALL, upd cid0 (ex_off x) (ex_msize x))
        else inl (OK, upd (CID CID_BSTR 0 c) (Some len) (ex_size x - len))
      end
    end
  end.
End Cid.
