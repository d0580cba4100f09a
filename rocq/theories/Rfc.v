(** Independent specification: RFC 8949 encoding and the structures of RFC 9528.

    Nothing here is taken from /repo; it is written from the RFCs and uses none of the model's
    encoders. *)
From Verif Require Import Bytes.

(** ** RFC 8949 data items (those EDHOC uses) and their preferred encoding. *)
Inductive item :=
| Num (v : Z)                        (* major types 0 and 1 *)
| Bstr (b : bytes)                   (* major type 2 *)
| Tstr (b : bytes)                   (* major type 3 *)
| Arr (l : list item)                (* major type 4 *)
| Map (l : list (item * item))       (* major type 5 *)
| Tru.                               (* simple value true *)

(** Number of bytes the argument takes after the initial byte (3.): the least that holds it. *)
Definition arg_width (n : Z) : Z :=
  if n <? 24 then 0 else if n <? 2 ^ 8 then 1 else if n <? 2 ^ 16 then 2
  else if n <? 2 ^ 32 then 4 else 8.
(** Additional information 24, 25, 26, 27 announce 1, 2, 4, 8 bytes. *)
Definition add_info (n : Z) : Z :=
  match arg_width n with 0 => n | 1 => 24 | 2 => 25 | 4 => 26 | _ => 27 end.
(** [w] bytes in network order: byte [i] is digit [w-1-i] of [n] in base 256. *)
Definition octets (w n : Z) : bytes :=
  map (fun i => n / 256 ^ (w - 1 - Z.of_nat i) mod 256) (seq 0 (Z.to_nat w)).
Definition head (major n : Z) : bytes := (2 ^ 5 * major + add_info n) :: octets (arg_width n) n.

Fixpoint cbor (i : item) : bytes :=
  match i with
  | Num v => if v <? 0 then head 1 (-1 - v) else head 0 v
  | Bstr b => head 2 (zlen b) ++ b
  | Tstr b => head 3 (zlen b) ++ b
  | Arr l => head 4 (zlen l) ++ flat_map cbor l
  | Map l => head 5 (zlen l) ++ flat_map (fun p : item * item => let (k, v) := p in cbor k ++ cbor v) l
  | Tru => [245]
  end.
(** CBOR sequence (RFC 8742). *)
Definition cbor_seq (l : list item) : bytes := flat_map cbor l.

(** Items within the ranges CBOR can express. *)
Fixpoint sane (i : item) : Prop :=
  match i with
  | Num v => - 2 ^ 64 <= v < 2 ^ 64
  | Bstr b | Tstr b => zlen b < 2 ^ 64
  | Arr l => zlen l < 2 ^ 64 /\ (fix all l := match l with [] => True | x :: r => sane x /\ all r end) l
  | Map l => zlen l < 2 ^ 64 /\
      (fix all l := match l with [] => True | (x, y) :: r => sane x /\ sane y /\ all r end) l
  | Tru => True
  end.

(** ** RFC 9528 *)

(** A connection identifier on the wire (3.3.2): one-byte integer or byte string. *)
Inductive cid := CNum (v : Z) | CBytes (b : bytes).
Definition cid_item (c : cid) : item := match c with CNum v => Num v | CBytes b => Bstr b end.

(** An EAD item (3.8): label and optional value. *)
Definition ead := (Z * option bytes)%type.
Definition ead_items (e : ead) : list item :=
  Num (fst e) :: match snd e with Some v => [Bstr v] | None => [] end.

(** SUITES_I (5.2.1): the selected suite alone, or the array of supported suites up to it. *)
Definition suites_item (l : list Z) : item :=
  match l with [s] => Num s | _ => Arr (map Num l) end.

(** message_1 (5.2.1): METHOD, SUITES_I, G_X, C_I, ? EAD_1. *)
Definition message_1_items (method : Z) (suites : list Z) (gx : bytes) (ci : cid) (e : list ead)
  : list item :=
  [Num method; suites_item suites; Bstr gx; cid_item ci] ++ flat_map ead_items e.

(** info (4.1.2): label, context, length. *)
Definition info (label : Z) (context : bytes) (len : Z) : bytes :=
  cbor_seq [Num label; Bstr context; Num len].

(** Sig_structure and Enc_structure (RFC 9052 4.4, 5.3). *)
Definition s_Signature1 : bytes := [83; 105; 103; 110; 97; 116; 117; 114; 101; 49].
Definition s_Encrypt0 : bytes := [69; 110; 99; 114; 121; 112; 116; 48].
Definition sig_structure (protected external payload : bytes) : bytes :=
  cbor (Arr [Tstr s_Signature1; Bstr protected; Bstr external; Bstr payload]).
Definition enc_structure (protected external : bytes) : bytes :=
  cbor (Arr [Tstr s_Encrypt0; Bstr protected; Bstr external]).

(** ID_CRED_x (3.5.3): a COSE header map with one parameter. *)
Inductive idcred :=
| KidNum (v : Z) | KidBytes (b : bytes)          (* 4: kid *)
| X5chain (l : list bytes)                       (* 33 *)
| X5tNum (alg : Z) (fp : bytes) | X5tText (alg fp : bytes).  (* 34 *)
Definition idcred_item (i : idcred) : item :=
  match i with
  | KidNum v => Map [(Num 4, Num v)]
  | KidBytes b => Map [(Num 4, Bstr b)]
  | X5chain [c] => Map [(Num 33, Bstr c)]
  | X5chain l => Map [(Num 33, Arr (map Bstr l))]
  | X5tNum a fp => Map [(Num 34, Arr [Num a; Bstr fp])]
  | X5tText a fp => Map [(Num 34, Arr [Tstr a; Bstr fp])]
  end.

(** error message (6.): ERR_CODE, ? ERR_INFO. *)
Inductive errinfo := InfoText (b : bytes) | InfoSuites (l : list Z) | InfoTrue.
Definition errinfo_item (i : errinfo) : item :=
  match i with InfoText b => Tstr b | InfoSuites l => suites_item l | InfoTrue => Tru end.
Definition error_message (code : Z) (i : option errinfo) : bytes :=
  cbor_seq (Num code :: match i with Some x => [errinfo_item x] | None => [] end).

(** KDF labels (4.1.2, 4.2). *)
Definition KEYSTREAM_2 := 0.
Definition SALT_3e2m := 1.
Definition MAC_2 := 2.
Definition K_3 := 3.
Definition IV_3 := 4.
Definition SALT_4e3m := 5.
Definition MAC_3 := 6.
Definition PRK_out := 7.
Definition K_4 := 8.
Definition IV_4 := 9.
Definition PRK_exporter := 10.
Definition NEW_PRK_out := 11.

(** Authentication by static Diffie-Hellman (3.2): the initiator in methods 2 and 3, the
    responder in methods 1 and 3. *)
Definition initiator_static (method : Z) : bool := (method =? 2) || (method =? 3).
Definition responder_static (method : Z) : bool := (method =? 1) || (method =? 3).
