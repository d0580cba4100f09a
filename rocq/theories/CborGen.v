(** The generated CBOR encoders and decoders of /repo/backends/cbor/src.

    An encoder yields the bytes of the item sequence, or [None] when the generated code
    refuses it (count or range outside the CDDL); the caller's capacity is applied by [fits]
    (Cbor.v).  A decoder works on a [dst].  Decoders of generated [union]s try the
    alternatives in source order from the same position. *)
From Verif Require Import Bytes Cbor.

(** [struct edhoc_ead_token] (include/edhoc_ead.h): label, value pointer and length. *)
Record token := TK { tk_label : Z; tk_val : zstr }.

(** An EAD item as handed to an encoder: label and, if [ead_value_present], the value. *)
Definition ead_item : Type := Z * option bytes.

(** ** Encoders *)

(** backend_cbor_ead_encode.c 24-33 [encode_ead_x]. *)
Definition enc_ead_item (e : ead_item) : bytes :=
  enc_int (fst e) ++ match snd e with Some v => enc_bstr v | None => [] end.
(** backend_cbor_ead_encode.c 38-48 [encode_ead]: one to three items. *)
Definition enc_ead (l : list ead_item) : option bytes :=
  if (1 <=? zlen l) && (zlen l <=? 3) then Some (concat (map enc_ead_item l)) else None.

(** backend_cbor_message_1_encode.c 24-40 [encode_suites]. *)
Inductive suites := SuInt (v : Z) | SuList (l : list Z).
Definition enc_suites (s : suites) : option bytes :=
  match s with
  | SuInt v => Some (enc_int v)
  | SuList l =>
    if (2 <=? zlen l) && (zlen l <=? 3)
    then Some (enc_head 4 (zlen l) ++ concat (map enc_int l)) else None
  end.

(** A connection identifier as passed to the encoders: integer or byte string. *)
Inductive cidv := CidInt (v : Z) | CidBstr (b : bytes).
(** backend_cbor_message_1_encode.c [encode_message_1] (C_I part): integers -24..23. *)
Definition enc_cidv (c : cidv) : option bytes :=
  match c with
  | CidInt v => if (-24 <=? v) && (v <=? 23) then Some (enc_int v) else None
  | CidBstr b => Some (enc_bstr b)
  end.

(** backend_cbor_message_1_encode.c 79-99 [encode_message_1]. *)
Definition enc_message_1 (m : Z) (su : suites) (gx : bytes) (ci : cidv)
    (ead : option (list ead_item)) : option bytes :=
  match enc_suites su, enc_cidv ci with
  | Some s, Some c =>
    let pre := enc_int m ++ s ++ enc_bstr gx ++ c in
    match ead with
    | None => Some pre
    | Some l => match enc_ead l with Some e => Some (pre ++ e) | None => None end
    end
  | _, _ => None
  end.

(** backend_cbor_info_encode.c [encode_info]: label, context, length. *)
Definition enc_info (label : Z) (context : bytes) (len : Z) : bytes :=
  enc_int label ++ enc_bstr context ++ enc_int len.

(** "Signature1" and "Encrypt0" as byte strings. *)
Definition str_Signature1 : bytes := [83; 105; 103; 110; 97; 116; 117; 114; 101; 49].
Definition str_Encrypt0 : bytes := [69; 110; 99; 114; 121; 112; 116; 48].

(** backend_cbor_sig_structure_encode.c [encode_sig_structure]. *)
Definition enc_sig_structure (prot ext payload : bytes) : bytes :=
  enc_head 4 4 ++ enc_tstr str_Signature1 ++ enc_bstr prot ++ enc_bstr ext ++ enc_bstr payload.
(** backend_cbor_enc_structure_encode.c [encode_enc_structure]. *)
Definition enc_enc_structure (prot ext : bytes) : bytes :=
  enc_head 4 3 ++ enc_tstr str_Encrypt0 ++ enc_bstr prot ++ enc_bstr ext.

(** ID_CRED_x contents: kid, x5chain (one certificate or a list), x5t. *)
Inductive kidv := KidInt (v : Z) | KidBstr (b : bytes).
Inductive chainv := ChOne (c : bytes) | ChList (l : list bytes).
Inductive algv := AlgInt (v : Z) | AlgTstr (b : bytes).
Inductive id_cred := IdKid (k : kidv) | IdChain (c : chainv) | IdHash (a : algv) (fp : bytes).

(** backend_cbor_id_cred_x_encode.c [encode_repeated_id_cred_x_kid], [encode_COSE_X509],
    [encode_COSE_CertHash]. *)
Definition enc_kidv (k : kidv) : bytes :=
  match k with KidInt v => enc_int v | KidBstr b => enc_bstr b end.
Definition enc_chainv (c : chainv) : option bytes :=
  match c with
  | ChOne b => Some (enc_bstr b)
  | ChList l =>
    if (2 <=? zlen l) && (zlen l <=? 3)
    then Some (enc_head 4 (zlen l) ++ concat (map enc_bstr l)) else None
  end.
Definition enc_algv (a : algv) : bytes :=
  match a with AlgInt v => enc_int v | AlgTstr b => enc_tstr b end.
(** backend_cbor_id_cred_x_encode.c [encode_id_cred_x]; the library always sets exactly one
    of the three members, so the map has one entry. *)
Definition enc_id_cred (i : id_cred) : option bytes :=
  match i with
  | IdKid k => Some (enc_head 5 1 ++ enc_int 4 ++ enc_kidv k)
  | IdChain c =>
    match enc_chainv c with
    | Some b => Some (enc_head 5 1 ++ enc_int 33 ++ b)
    | None => None
    end
  | IdHash a fp =>
    Some (enc_head 5 1 ++ enc_int 34 ++ (enc_head 4 2 ++ enc_algv a ++ enc_bstr fp))
  end.

(** backend_cbor_message_error_encode.c [encode_message_error]. *)
Inductive err_info := EiTstr (b : bytes) | EiSuites (s : suites) | EiTrue.
Definition enc_err_info (i : err_info) : option bytes :=
  match i with
  | EiTstr b => Some (enc_tstr b)
  | EiSuites s => enc_suites s
  | EiTrue => Some [245]
  end.
Definition enc_message_error (code : Z) (info : option err_info) : option bytes :=
  match info with
  | None => Some (enc_int code)
  | Some i => match enc_err_info i with Some b => Some (enc_int code ++ b) | None => None end
  end.

(** ** Decoders *)
Section Dec.
Variable canon : bool.

(** [decode_ead_x]/[decode_ead_y] (backend_cbor_message_1_decode.c 40-49 and the plaintext
    files): a failed value decode does not fail the item, and leaves what it stored. *)
Definition dec_ead_item (s : dst) : option (token * dst) :=
  match dec_int32 canon s with
  | Some (l, s1) =>
    match dec_str_p canon 2 zstr0 s1 with
    | (_, z, s2) => Some (TK l z, s2)
    end
  | None => None
  end.
(** [decode_EAD_1..4]: one to three items; the message decoders ignore a failure here
    ([present = decode, 1]). *)
Definition dec_ead (s : dst) : bool * list token * dst := multi 1 3 dec_ead_item s.

(** [decode_suites] with the structure contents after a failure: choice 0 (list) is the
    zero default, the list part holds what was decoded. *)
Record su_res := SR { sr_ok : bool; sr_choice : Z; sr_list : list Z; sr_int : Z }.
Definition dec_suites_p (s : dst) : su_res * dst :=
  match list_start canon s with
  | Some (outer, s1) =>
    match multi 2 3 (dec_int32 canon) s1 with
    | (true, l, s2) =>
      match list_end outer s2 with
      | Some s3 => (SR true 0 l 0, s3)
      | None => (SR false 0 l 0, s)
      end
    | (false, l, _) => (SR false 0 l 0, s)
    end
  | None =>
    match dec_int32 canon s with
    | Some (v, s1) => (SR true 1 [] v, s1)
    | None => (SR false 0 [] 0, s)
    end
  end.
Definition dec_suites (s : dst) : option (suites * dst) :=
  match dec_suites_p s with
  | (SR true c l v, s') => Some (if c =? 0 then SuList l else SuInt v, s')
  | _ => None
  end.

(** backend_cbor_message_1_decode.c 78-101 [decode_message_1] and 107-115: result flag,
    structure contents (also after a failure), bytes left.  Element count 10. *)
Record dm1 := DM1 {
  m1_method : Z; m1_su_choice : Z; m1_su_list : list Z; m1_su_int : Z;
  m1_gx : zstr; m1_ci_choice : Z; m1_ci_bstr : zstr; m1_ci_int : Z;
  m1_ead_present : bool; m1_ead : list token }.
Definition dm1_0 : dm1 := DM1 0 0 [] 0 zstr0 0 zstr0 0 false [].
Definition dec_message_1 (m : bytes) : bool * dm1 * bytes :=
  let s0 := DS 10 m in
  match dec_int32 canon s0 with
  | None => (false, dm1_0, m)
  | Some (meth, s1) =>
    let (su, s2) := dec_suites_p s1 in
    if negb (sr_ok su)
    then (false, DM1 meth (sr_choice su) (sr_list su) (sr_int su) zstr0 0 zstr0 0 false [], m)
    else
    match dec_str_p canon 2 zstr0 s2 with
    | (false, gx, _) =>
      (false, DM1 meth (sr_choice su) (sr_list su) (sr_int su) gx 0 zstr0 0 false [], m)
    | (true, gx, s3) =>
      let mk := DM1 meth (sr_choice su) (sr_list su) (sr_int su) gx in
      match dec_str_p canon 2 zstr0 s3 with
      | (true, ci, s4) =>
        match dec_ead s4 with (ok, l, s5) => (true, mk 0 ci 0 ok l, d_rest s5) end
      | (false, ci, _) =>
        match dec_int32 canon s3 with
        | Some (v, s4) =>
          if (-24 <=? v) && (v <=? 23)
          then match dec_ead s4 with (ok, l, s5) => (true, mk 1 zstr0 v ok l, d_rest s5) end
          else (false, mk 0 zstr0 v false [], m)
        | None => (false, mk 0 ci 0 false [], m)
        end
      end
    end
  end.

(** A single byte string: backend_cbor_bstr_type_decode.c, message_2/3/4_decode.c. *)
Definition dec_one_bstr (m : bytes) : option bytes :=
  match dec_bstr canon (DS 1 m) with Some (b, _) => Some b | None => None end.
(** backend_cbor_int_type_decode.c. *)
Definition dec_one_int (m : bytes) : option Z :=
  match dec_int32 canon (DS 1 m) with Some (v, _) => Some v | None => None end.

(** [union { bstr, int -24..23 }]: C_R in backend_cbor_plaintext_2_decode.c 189-192 and
    backend_cbor_connection_identifier_decode.c 32-45. *)
Definition dec_cidv (s : dst) : option (cidv * dst) :=
  match dec_bstr canon s with
  | Some (b, s') => Some (CidBstr b, s')
  | None =>
    match dec_int32 canon s with
    | Some (v, s') => if (-24 <=? v) && (v <=? 23) then Some (CidInt v, s') else None
    | None => None
    end
  end.

(** [decode_repeated_map_kid] (plaintext_2_decode.c 29-46). *)
Definition dec_map_kid (s : dst) : option (kidv * dst) :=
  match expect_uint canon 4 s with
  | Some s1 =>
    match dec_int32 canon s1 with
    | Some (v, s2) => Some (KidInt v, s2)
    | None => match dec_bstr canon s1 with
              | Some (b, s2) => Some (KidBstr b, s2) | None => None end
    end
  | None => None
  end.
(** [decode_COSE_X509] / [decode_repeated_map_x5chain]. *)
Definition dec_map_chain (s : dst) : option (chainv * dst) :=
  match expect_uint canon 33 s with
  | Some s1 =>
    match dec_bstr canon s1 with
    | Some (b, s2) => Some (ChOne b, s2)
    | None =>
      match list_start canon s1 with
      | Some (outer, s2) =>
        match multi 2 3 (dec_bstr canon) s2 with
        | (true, l, s3) =>
          match list_end outer s3 with Some s4 => Some (ChList l, s4) | None => None end
        | (false, _, _) => None
        end
      | None => None
      end
    end
  | None => None
  end.
(** [decode_COSE_CertHash] / [decode_repeated_map_x5t]. *)
Definition dec_map_x5t (s : dst) : option ((algv * bytes) * dst) :=
  match expect_uint canon 34 s with
  | Some s1 =>
    match list_start canon s1 with
    | Some (outer, s2) =>
      match (match dec_int32 canon s2 with
             | Some (v, s3) => Some (AlgInt v, s3)
             | None => match dec_tstr canon s2 with
                       | Some (b, s3) => Some (AlgTstr b, s3) | None => None end
             end) with
      | Some (a, s3) =>
        match dec_bstr canon s3 with
        | Some (h, s4) =>
          match list_end outer s4 with Some s5 => Some ((a, h), s5) | None => None end
        | None => None
        end
      | None => None
      end
    | None => None
    end
  | None => None
  end.
(** zcbor_present_decode. *)
Definition present {A} (f : dst -> option (A * dst)) (s : dst) : option A * dst :=
  match f s with Some (a, s') => (Some a, s') | None => (None, s) end.
(** [decode_map]: kid?, x5chain?, x5t? in this order. *)
Record cmap := CMap { mp_kid : option kidv; mp_chain : option chainv;
                      mp_x5t : option (algv * bytes) }.
Definition dec_map (s : dst) : option (cmap * dst) :=
  match map_start canon s with
  | Some (outer, s1) =>
    let (k, s2) := present dec_map_kid s1 in
    let (c, s3) := present dec_map_chain s2 in
    let (h, s4) := present dec_map_x5t s3 in
    match list_end outer s4 with Some s5 => Some (CMap k c h, s5) | None => None end
  | None => None
  end.

(** ID_CRED_x in plaintexts: int, bstr or map. *)
Inductive idv := IvInt (v : Z) | IvBstr (b : bytes) | IvMap (m : cmap).
Definition dec_idv (s : dst) : option (idv * dst) :=
  match dec_int32 canon s with
  | Some (v, s') => Some (IvInt v, s')
  | None =>
    match dec_bstr canon s with
    | Some (b, s') => Some (IvBstr b, s')
    | None => match dec_map s with Some (m, s') => Some (IvMap m, s') | None => None end
    end
  end.

(** backend_cbor_plaintext_2_decode.c 181-216 [decode_plaintext_2], element count 9. *)
Record dpt := DPT { pt_cid : cidv; pt_id : idv; pt_sig : bytes; pt_ead : list token }.
Definition dec_plaintext_2 (p : bytes) : option dpt :=
  match dec_cidv (DS 9 p) with
  | Some (c, s1) =>
    match dec_idv s1 with
    | Some (i, s2) =>
      match dec_bstr canon s2 with
      | Some (sg, s3) =>
        match dec_ead s3 with (ok, l, _) => Some (DPT c i sg (if ok then l else [])) end
      | None => None
      end
    | None => None
    end
  | None => None
  end.
(** backend_cbor_plaintext_3_decode.c 179-212 [decode_plaintext_3], element count 8. *)
Definition dec_plaintext_3 (p : bytes) : option dpt :=
  match dec_idv (DS 8 p) with
  | Some (i, s2) =>
    match dec_bstr canon s2 with
    | Some (sg, s3) =>
      match dec_ead s3 with (ok, l, _) => Some (DPT (CidBstr []) i sg (if ok then l else [])) end
    | None => None
    end
  | None => None
  end.
(** backend_cbor_plaintext_4_decode.c 59-87 [decode_plaintext_4], element count 6; zcbor's
    entry function fails on an empty payload only when an item is required, so the empty
    plaintext decodes to no item. *)
Definition dec_plaintext_4 (p : bytes) : list token :=
  match dec_ead (DS 6 p) with (_, l, _) => l end.

(** backend_cbor_message_error_decode.c 40-92 [decode_message_error], element count 2. *)
Definition dec_err_info (s : dst) : option (err_info * dst) :=
  match dec_tstr canon s with
  | Some (b, s') => Some (EiTstr b, s')
  | None =>
    match dec_suites s with
    | Some (u, s') => Some (EiSuites u, s')
    | None => match expect_true s with Some s' => Some (EiTrue, s') | None => None end
    end
  end.
Definition dec_message_error (m : bytes) : option (Z * option err_info) :=
  match dec_int32 canon (DS 2 m) with
  | Some (c, s1) => Some (c, fst (present dec_err_info s1))
  | None => None
  end.
End Dec.
