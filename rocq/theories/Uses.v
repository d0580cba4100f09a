(** What a trace of callback invocations says was computed, and views of the context.

    Specification vocabulary: no code of /repo is modelled here.  A trace is newest first.
    "[t] shows ..." means that the callbacks invoked in [t] gave that answer. *)
From Verif Require Import Monad Rfc.

(** Key behind a handle: the last successful import under it that was not destroyed. *)
Fixpoint key_of (kid : bytes) (t : list event) : option (Z * bytes) :=
  match t with
  | [] => None
  | EvImport kt key r k :: t' => if (r =? OK) && beqb kid k then Some (kt, key) else key_of kid t'
  | EvDestroy k _ :: t' => if beqb kid k then None else key_of kid t'
  | _ :: t' => key_of kid t'
  end.
(** [e] occurs in [t] at a moment when [kid] was a handle for [key] of type [kt]. *)
Definition with_key (t : list event) (e : event) (kid : bytes) (kt : Z) (key : bytes) : Prop :=
  exists t1 t2, t = t1 ++ e :: t2 /\ key_of kid t2 = Some (kt, key).

(** Hash of [x], asked for [n] bytes, is [y]. *)
Definition hashed (t : list event) (x : bytes) (n : Z) (y : bytes) : Prop :=
  In (EvHash x n OK y) t.
(** EDHOC_Extract(salt, ikm) is [prk]. *)
Definition extracted (t : list event) (salt ikm prk : bytes) : Prop :=
  exists kid, with_key t (EvExtract kid salt OK prk) kid KT_EXTRACT ikm.
(** EDHOC_Expand(prk, info, n) is [out]: what the [n]-byte zeroed buffer holds after the
    callback wrote to it. *)
Definition expanded (t : list event) (prk info : bytes) (n : Z) (out : bytes) : Prop :=
  exists kid o, with_key t (EvExpand kid info n OK o) kid KT_EXPAND prk /\
                zlen o <= n /\ out = arr_read n o.
(** Diffie-Hellman of the private key [priv] and the public key [peer] is [out]. *)
Definition agreed (t : list event) (priv peer out : bytes) : Prop :=
  exists kid, with_key t (EvAgree kid peer OK out) kid KT_KEY_AGREEMENT priv.
(** Same with a long-term private key the application keeps under the handle [kid]. *)
Definition agreed_lt (t : list event) (kid peer out : bytes) : Prop :=
  In (EvAgree kid peer OK out) t.
(** A fresh key pair. *)
Definition made (t : list event) (priv pub : bytes) : Prop :=
  exists kid, In (EvMkPair kid OK priv pub) t.
(** Signature of [input] with the long-term key [kid]; verification under [pub]. *)
Definition signed (t : list event) (kid input sign : bytes) : Prop :=
  In (EvSign kid input OK sign) t.
Definition verified (t : list event) (pub input sign : bytes) : Prop :=
  exists kid, with_key t (EvVerify kid input sign OK) kid KT_VERIFY pub.
(** AEAD. *)
Definition encrypted (t : list event) (key nonce aad ptxt ctxt : bytes) : Prop :=
  exists kid, with_key t (EvEncrypt kid nonce aad ptxt OK ctxt) kid KT_ENCRYPT key.
Definition decrypted (t : list event) (key nonce aad ctxt ptxt : bytes) : Prop :=
  exists kid, with_key t (EvDecrypt kid nonce aad ctxt OK ptxt) kid KT_DECRYPT key.

(** Contract of the hash and expand callbacks: a successful one fills its buffer. *)
Definition full (t : list event) : Prop :=
  (forall x n y, In (EvHash x n OK y) t -> zlen y = n) /\
  (forall kid info n y, In (EvExpand kid info n OK y) t -> zlen y = n).

(** Views of a context: the used part of its byte arrays. *)
Definition th_of (c : ctx) : bytes := arr_read (c_th_len c) (c_th c).
Definition prk_of (c : ctx) : bytes := arr_read (c_prk_len c) (c_prk c).
Definition pub_of (c : ctx) : bytes := arr_read (c_dh_pub_len c) (c_dh_pub c).
Definition priv_of (c : ctx) : bytes := arr_read (c_dh_priv_len c) (c_dh_priv c).
Definition peer_of (c : ctx) : bytes := arr_read (c_dh_peer_len c) (c_dh_peer c).

(** A connection identifier, a credential and an EAD token as the RFC sees them. *)
Definition cid_rfc (i : conn_id) : cid :=
  if cid_type i =? CID_INT then CNum (cid_int i) else CBytes (cid_bstr i).
(** ID_CRED_x on the wire and in the MAC context; credentials of the kind "any" come already
    encoded. *)
Definition id_bytes (cr : creds) : bytes :=
  match cr_body cr with
  | CKid _ _ e ki kb => cbor (idcred_item (if e =? ENC_INT then KidNum ki else KidBytes kb))
  | CChain l => cbor (idcred_item (X5chain l))
  | CHash _ fp e ai ab => cbor (idcred_item (if e =? ENC_INT then X5tNum ai fp else X5tText ab fp))
  | CAny i _ _ _ _ => i
  | CNone => []
  end.
(** CRED_x: the credential as given when it is already CBOR, the end-entity certificate as a
    byte string otherwise. *)
Definition cred_bytes_of (cr : creds) : bytes :=
  match cr_body cr with
  | CKid ck is_cbor _ _ _ => if is_cbor then ck else cbor (Bstr ck)
  | CChain l => cbor (Bstr (nth 0 l []))
  | CHash ct _ _ _ _ => cbor (Bstr ct)
  | CAny _ _ _ _ ca => ca
  | CNone => []
  end.
Definition ead_of (t : token) : ead :=
  (tk_label t, match zs_ptr (tk_val t) with
               | None => None
               | Some b => Some (take (zs_len (tk_val t)) b)
               end).
(** A token whose value lies inside the memory its pointer leads to. *)
Definition token_in (t : token) : Prop :=
  match zs_ptr (tk_val t) with Some r => zs_len (tk_val t) <= zlen r | None => True end.
Definition eads_in (l : list token) : Prop := Forall token_in l /\ zlen l <= 3.
Definition eads (l : list token) : bytes := cbor_seq (flat_map ead_items (map ead_of l)).

(** The credential a peer names by ID_CRED_x [i] (RFC 9528 3.5.3): what the library hands to
    the credential verification callback.  A header map may carry both x5chain (33) and x5t
    (34): [chain] says which one counts.  A map with neither names nothing. *)
Fixpoint param (k : Z) (l : list (item * item)) : option item :=
  match l with
  | [] => None
  | (Num j, v) :: r => if j =? k then Some v else param k r
  | _ :: r => param k r
  end.
Inductive names_cert : item -> creds -> Prop :=
| NcOne b : names_cert (Bstr b) (CR [] COSE_CHAIN (CChain [b]))
| NcMany l : names_cert (Arr (map Bstr l)) (CR [] COSE_CHAIN (CChain l)).
Inductive names_hash : item -> creds -> Prop :=
| NhNum a fp : names_hash (Arr [Num a; Bstr fp]) (CR [] COSE_HASH (CHash [] fp ENC_INT a []))
| NhText a fp : names_hash (Arr [Tstr a; Bstr fp]) (CR [] COSE_HASH (CHash [] fp ENC_BSTR 0 a)).
Definition names (chain : bool) (i : item) (cr : creds) : Prop :=
  match i with
  | Num v => cr = CR [] COSE_KID (CKid [] false ENC_INT v [])
  | Bstr b => cr = CR [] COSE_KID (CKid [] false ENC_BSTR 0 b)
  | Map l =>
    match param 33 l, param 34 l with
    | None, None => cr = creds0
    | Some x, None => names_cert x cr
    | None, Some x => names_hash x cr
    | Some x, Some y => if chain then names_cert x cr else names_hash y cr
    end
  | _ => False
  end.
