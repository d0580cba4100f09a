(** What a receiver may conclude about the bytes it got, and how identities travel.

    Specification only: written from RFC 9528 sections 3.5 and 5 in the vocabulary of [Rfc],
    [Wire] and [Uses]; no code of /repo is modelled here. *)
From Verif Require Import Monad Rfc Wire Uses Conform.

(** [b] begins with the items [l], written as CBOR in some valid way. *)
Definition carries (b : bytes) (l : list item) : Prop :=
  exists w rest, b = w ++ rest /\ written_seq l w.
(** Answers of expand and decrypt are octet strings (they are [uint8_t] arrays in C). *)
Definition octets (t : list event) : Prop :=
  (forall kid i n r o, In (EvExpand kid i n r o) t -> wf_bytes o) /\
  (forall kid n a y r x, In (EvDecrypt kid n a y r x) t -> wf_bytes x).
(** Labels of composed EAD items fit their C type. *)
Definition labels_ok (t : list event) : Prop :=
  forall m l k, In (EvEadCompose m OK l) t -> In k l -> - 2 ^ 31 <= tk_label k < 2 ^ 31.

(** PLAINTEXT_2 and PLAINTEXT_3 (5.3.2, 5.4.2) as items. *)
Definition plaintext_2_items (c_r : cid) (id : item) (sig : bytes) (e : list ead) : list item :=
  cid_item c_r :: id :: Bstr sig :: flat_map ead_items e.
Definition plaintext_3_items (id : item) (sig : bytes) (e : list ead) : list item :=
  id :: Bstr sig :: flat_map ead_items e.

(** How ID_CRED_x of a credential travels (3.5.3.2): a key identifier alone, anything else as
    the header map.  A key identifier is either encoded by the library ([is_cbor] false) or
    given as its CBOR encoding ([is_cbor] true). *)
Inductive travels : creds -> item -> Prop :=
| TrNum p l cred kb v : -24 <= v <= 23 -> travels (CR p l (CKid cred false ENC_INT v kb)) (Num v)
| TrBytes p l cred ki b : travels (CR p l (CKid cred false ENC_BSTR ki b)) (Bstr b)
| TrNumRaw p l cred kb x v : -24 <= v <= 23 -> [x] = cbor (Num v) ->
    travels (CR p l (CKid cred true ENC_INT x kb)) (Num v)
| TrOneRaw p l cred ki x v : -24 <= v <= 23 -> x = cbor (Num v) ->
    travels (CR p l (CKid cred true ENC_BSTR ki x)) (Num v)
| TrBytesRaw p l cred ki x b : x = cbor (Bstr b) ->
    travels (CR p l (CKid cred true ENC_BSTR ki x)) (Bstr b)
| TrChain p l certs : 1 <= zlen certs <= 3 ->
    travels (CR p l (CChain certs)) (idcred_item (X5chain certs))
| TrHashNum p l cert fp a ab : - 2 ^ 31 <= a < 2 ^ 31 ->
    travels (CR p l (CHash cert fp ENC_INT a ab)) (idcred_item (X5tNum a fp))
| TrHashText p l cert fp ai a :
    travels (CR p l (CHash cert fp ENC_BSTR ai a)) (idcred_item (X5tText a fp)).
(** Two credentials with the same identifier, field by field. *)
Definition same_identity (a b : creds) : Prop :=
  match cr_body a, cr_body b with
  | CKid _ _ e v k, CKid _ _ e' v' k' => e = e' /\ (if e =? ENC_INT then v = v' else k = k')
  | CChain l, CChain l' => l = l'
  | CHash _ fp e v k, CHash _ fp' e' v' k' =>
    fp = fp' /\ e = e' /\ (if e =? ENC_INT then v = v' else k = k')
  | _, _ => False
  end.
(** The application gives the key identifier as its CBOR encoding. *)
Definition raw_kid (cr : creds) : bool :=
  match cr_body cr with CKid _ is_cbor _ _ _ => is_cbor | _ => false end.

(** EAD items for message [msg] that the compose callback supplied, and those that were handed
    to the process callback, in order. *)
Definition sent (msg : Z) (t : list event) : list ead :=
  flat_map (fun e => match e with
                     | EvEadCompose m r l => if (m =? msg) && (r =? OK) then map ead_of l else []
                     | _ => []
                     end) t.
Definition received (msg : Z) (t : list event) : list ead :=
  flat_map (fun e => match e with
                     | EvEadProcess m l _ => if m =? msg then map ead_of l else []
                     | _ => []
                     end) t.

(** Length of MAC_2 and MAC_3 (5.3.2, 5.4.2): [static] lists the methods in which the
    authenticating party uses static Diffie-Hellman. *)
Definition mac_rule (method : Z) (static : list Z) (s : csuite) (n : Z) : Prop :=
  (In method static /\ n = cs_mac s) \/ (~ In method static /\ n = cs_hash s).

(** Questions to the application, and how often one occurs in a trace. *)
Definition is_fetch (e : event) : bool := match e with EvFetch _ _ => true | _ => false end.
Definition is_verify (e : event) : bool := match e with EvCredVerify _ _ _ _ => true | _ => false end.
Definition is_compose (e : event) : bool := match e with EvEadCompose _ _ _ => true | _ => false end.
Definition is_process (e : event) : bool := match e with EvEadProcess _ _ _ => true | _ => false end.
Definition asked (q : event -> bool) (t : list event) : nat := length (filter q t).
