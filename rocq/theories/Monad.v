(** Worlds, undefined behaviour, events, callbacks and the memory backend. *)
From Verif Require Export Bytes Cbor CborGen Values Ctx.

(** Kinds of undefined behaviour. *)
Inductive ub :=
| UbNull      (* NULL dereference or call through a NULL function pointer *)
| UbRead      (* read outside an object *)
| UbWrite     (* write outside an object *)
| UbStrNull   (* a received byte string used through a NULL pointer *)
| UbStrRead   (* read beyond the end of a received byte string *)
| UbKidWrite  (* write outside key_id_bstr[] while a received ID_CRED is parsed *)
| UbEadRead   (* read outside an EAD value (a token that claims more bytes than it has) *)
| UbMsg3Write (* write one byte past the caller's message_3 buffer *)
| UbVla       (* variable-length array of size zero or beyond the stack *)
| UbUnion     (* wrong union member *)
| UbWild      (* dereference of a pointer made from attacker bytes *)
| UbFree      (* release of a block that is not live *)
| UbCallback. (* a callback wrote more than the size it was given *)

(** The buffers the library obtains from its memory backend (EDHOC_MEM_ALLOC sites in
    library/*.c; one constructor per variable name). *)
Inductive buf :=
| BDhPub | BCose | BInfo | BTh | BSalt | BGxx | BMsg | BPrk2e | BMacCtx | BMac | BSignature
| BPlaintext | BKeystream | BCiphertext | BKey | BIv | BAad | BPrkExp.

(** What an API call does to the outside: allocations, releases, callback invocations with
    their results.  Callback arguments are those of include/edhoc_crypto.h,
    edhoc_credentials.h, edhoc_ead.h. *)
Inductive event :=
| EvAlloc (b : buf) (n : Z) (ok : bool)
| EvFree (b : buf)
| EvImport (kt : Z) (key : bytes) (r : Z) (kid : bytes)
| EvDestroy (kid : bytes) (r : Z)
| EvMkPair (kid : bytes) (r : Z) (priv pub : bytes)
| EvAgree (kid peer : bytes) (r : Z) (out : bytes)
| EvSign (kid input : bytes) (r : Z) (out : bytes)
| EvVerify (kid input sign : bytes) (r : Z)
| EvExtract (kid salt : bytes) (r : Z) (out : bytes)
| EvExpand (kid info : bytes) (n : Z) (r : Z) (out : bytes)
| EvEncrypt (kid nonce aad ptxt : bytes) (r : Z) (out : bytes)
| EvDecrypt (kid nonce aad ctxt : bytes) (r : Z) (out : bytes)
| EvHash (input : bytes) (n : Z) (r : Z) (out : bytes)
| EvFetch (r : Z) (cr : creds)
| EvCredVerify (cr : creds) (r : Z) (cr' : creds) (pub : bytes)
| EvEadCompose (msg : Z) (r : Z) (toks : list token)
| EvEadProcess (msg : Z) (toks : list token) (r : Z).

(** Environment: build configuration (CONFIG_LIBEDHOC_*, Kconfig and
    include/edhoc_context.h), and the callbacks and allocator as arbitrary functions of the
    whole history (newest event first) and their arguments.  A first argument [Z] is the
    identity of the bound function.  Outputs are the bytes written; the reported length is
    their number. *)
Class env := Env {
  cf_max_suites : Z;  (* MAX_NR_OF_CIPHER_SUITES *)
  cf_max_cid : Z;     (* MAX_LEN_OF_CONN_ID *)
  cf_max_ecc : Z;     (* MAX_LEN_OF_ECC_KEY *)
  cf_max_mac : Z;     (* MAX_LEN_OF_MAC *)
  cf_max_ead : Z;     (* MAX_NR_OF_EAD_TOKENS *)
  cf_max_certs : Z;   (* MAX_NR_OF_CERTS_IN_X509_CHAIN *)
  cf_max_kid : Z;     (* MAX_LEN_OF_CRED_KEY_ID *)
  cf_max_alg : Z;     (* MAX_LEN_OF_HASH_ALG *)
  cf_canon : bool;    (* zcbor built with ZCBOR_CANONICAL *)
  cf_stack : option Z;(* Some limit: stack (VLA) backend; None: heap/custom backend *)
  cf_sizeof_mac : Z;  (* sizeof(struct mac_context) *)
  o_alloc : list event -> buf -> Z -> bool;
  o_import : Z -> list event -> Z -> bytes -> Z * bytes;
  o_destroy : Z -> list event -> bytes -> Z;
  o_mkpair : Z -> list event -> bytes -> Z -> Z -> Z * bytes * bytes;
  o_agree : Z -> list event -> bytes -> bytes -> Z -> Z * bytes;
  o_sign : Z -> list event -> bytes -> bytes -> Z -> Z * bytes;
  o_verify : Z -> list event -> bytes -> bytes -> bytes -> Z;
  o_extract : Z -> list event -> bytes -> bytes -> Z -> Z * bytes;
  o_expand : Z -> list event -> bytes -> bytes -> Z -> Z * bytes;
  o_encrypt : Z -> list event -> bytes -> bytes -> bytes -> bytes -> Z -> Z * bytes;
  o_decrypt : Z -> list event -> bytes -> bytes -> bytes -> bytes -> Z -> Z * bytes;
  o_hash : Z -> list event -> bytes -> Z -> Z * bytes;
  o_fetch : Z -> list event -> Z * creds;
  o_cverify : Z -> list event -> creds -> Z * creds * bytes;
  o_compose : Z -> list event -> Z -> Z -> Z * list token;
  o_process : Z -> list event -> Z -> list token -> Z
}.

(** ** The monad *)
Record world := Wd { w_ctx : ctx; w_tr : list event }.
Inductive res (A : Type) := Ret (a : A) (w : world) | Ub (u : ub).
Arguments Ret {A} a w.
Arguments Ub {A} u.
Definition M (A : Type) := world -> res A.

Definition ret {A} (a : A) : M A := fun w => Ret a w.
Definition bind {A B} (m : M A) (k : A -> M B) : M B :=
  fun w => match m w with Ret a w' => k a w' | Ub u => Ub u end.
Definition fault {A} (u : ub) : M A := fun _ => Ub u.
Notation "x <- m ;; k" := (bind m (fun x => k)) (at level 100, m at next level, right associativity).
Notation "' p <- m ;; k" := (bind m (fun x => match x with p => k end))
  (at level 100, p pattern, m at next level, right associativity).
Notation "m ;;; k" := (bind m (fun _ => k)) (at level 100, right associativity).

Definition getc : M ctx := fun w => Ret (w_ctx w) w.
Definition trace : M (list event) := fun w => Ret (w_tr w) w.
Definition modify (f : ctx -> ctx) : M unit := fun w => Ret tt (Wd (f (w_ctx w)) (w_tr w)).
Definition emit (e : event) : M unit := fun w => Ret tt (Wd (w_ctx w) (e :: w_tr w)).
(** Undefined behaviour unless [b]. *)
Definition check (b : bool) (u : ub) : M unit := if b then ret tt else fault u.
Definition need {A} (o : option A) (u : ub) : M A :=
  match o with Some a => ret a | None => fault u end.

Section Prim.
Context {E : env}.

(** Number of live blocks under a name: allocations that succeeded minus releases. *)
Definition buf_eqb (a b : buf) : bool :=
  match a, b with
  | BDhPub, BDhPub | BCose, BCose | BInfo, BInfo | BTh, BTh | BSalt, BSalt | BGxx, BGxx
  | BMsg, BMsg | BPrk2e, BPrk2e | BMacCtx, BMacCtx | BMac, BMac | BSignature, BSignature
  | BPlaintext, BPlaintext | BKeystream, BKeystream | BCiphertext, BCiphertext | BKey, BKey
  | BIv, BIv | BAad, BAad | BPrkExp, BPrkExp => true
  | _, _ => false
  end.
Fixpoint live (b : buf) (t : list event) : Z :=
  match t with
  | [] => 0
  | EvAlloc b' _ true :: t' => live b t' + (if buf_eqb b b' then 1 else 0)
  | EvFree b' :: t' => live b t' - (if buf_eqb b b' then 1 else 0)
  | _ :: t' => live b t'
  end.

(** backends/memory/include/edhoc_backend_memory.h 170-176 (stack) and 230-235 (heap,
    custom): EDHOC_MEM_ALLOC.  The block is zeroed.  [false] is NULL. *)
Definition alloc (b : buf) (n : Z) : M bool :=
  match cf_stack with
  | Some lim =>
    check ((0 <? n) && (n <=? lim)) UbVla ;;; emit (EvAlloc b n true) ;;; ret true
  | None =>
    t <- trace ;; let ok := o_alloc t b n in emit (EvAlloc b n ok) ;;; ret ok
  end.
(** EDHOC_MEM_FREE. *)
Definition free (b : buf) : M unit :=
  t <- trace ;; check (0 <? live b t) UbFree ;;; emit (EvFree b).

(** Read the first [n] bytes of an array of capacity [cap]. *)
Definition rd (cap n : Z) (l : bytes) : M bytes :=
  check (n <=? cap) UbRead ;;; ret (arr_read n l).
(** Bytes [0..n) behind a zcbor string pointer. *)
Definition rd_ptr (n : Z) (p : option bytes) : M bytes :=
  if n <=? 0 then ret [] else
  match p with
  | None => fault UbStrNull
  | Some b => check (n <=? zlen b) UbStrRead ;;; ret (take n b)
  end.

(** Callback invocations. [n] is the size passed, the output may not exceed it. *)
Definition out_ok (n : Z) (out : bytes) : M unit := check (zlen out <=? n) UbCallback.

Definition call_import (kt : Z) (key : bytes) : M (Z * bytes) :=
  c <- getc ;; f <- need (f_import (c_keys c)) UbNull ;; t <- trace ;;
  let '(r, kid) := o_import f t kt key in emit (EvImport kt key r kid) ;;; ret (r, kid).
Definition call_destroy (kid : bytes) : M Z :=
  c <- getc ;; f <- need (f_destroy (c_keys c)) UbNull ;; t <- trace ;;
  let r := o_destroy f t kid in emit (EvDestroy kid r) ;;; ret r.
Definition call_mkpair (kid : bytes) (npriv npub : Z) : M (Z * bytes * bytes) :=
  c <- getc ;; f <- need (f_mkpair (c_crypto c)) UbNull ;; t <- trace ;;
  let '(r, priv, pub) := o_mkpair f t kid npriv npub in
  emit (EvMkPair kid r priv pub) ;;; out_ok npriv priv ;;; out_ok npub pub ;;;
  ret (r, priv, pub).
Definition call_agree (kid peer : bytes) (n : Z) : M (Z * bytes) :=
  c <- getc ;; f <- need (f_agree (c_crypto c)) UbNull ;; t <- trace ;;
  let '(r, out) := o_agree f t kid peer n in
  emit (EvAgree kid peer r out) ;;; out_ok n out ;;; ret (r, out).
Definition call_sign (kid input : bytes) (n : Z) : M (Z * bytes) :=
  c <- getc ;; f <- need (f_sign (c_crypto c)) UbNull ;; t <- trace ;;
  let '(r, out) := o_sign f t kid input n in
  emit (EvSign kid input r out) ;;; out_ok n out ;;; ret (r, out).
Definition call_verify (kid input sign : bytes) : M Z :=
  c <- getc ;; f <- need (f_verify (c_crypto c)) UbNull ;; t <- trace ;;
  let r := o_verify f t kid input sign in emit (EvVerify kid input sign r) ;;; ret r.
Definition call_extract (kid salt : bytes) (n : Z) : M (Z * bytes) :=
  c <- getc ;; f <- need (f_extract (c_crypto c)) UbNull ;; t <- trace ;;
  let '(r, out) := o_extract f t kid salt n in
  emit (EvExtract kid salt r out) ;;; out_ok n out ;;; ret (r, out).
Definition call_expand (kid info : bytes) (n : Z) : M (Z * bytes) :=
  c <- getc ;; f <- need (f_expand (c_crypto c)) UbNull ;; t <- trace ;;
  let '(r, out) := o_expand f t kid info n in
  emit (EvExpand kid info n r out) ;;; out_ok n out ;;; ret (r, out).
Definition call_encrypt (kid nonce aad ptxt : bytes) (n : Z) : M (Z * bytes) :=
  c <- getc ;; f <- need (f_encrypt (c_crypto c)) UbNull ;; t <- trace ;;
  let '(r, out) := o_encrypt f t kid nonce aad ptxt n in
  emit (EvEncrypt kid nonce aad ptxt r out) ;;; out_ok n out ;;; ret (r, out).
Definition call_decrypt (kid nonce aad ctxt : bytes) (n : Z) : M (Z * bytes) :=
  c <- getc ;; f <- need (f_decrypt (c_crypto c)) UbNull ;; t <- trace ;;
  let '(r, out) := o_decrypt f t kid nonce aad ctxt n in
  emit (EvDecrypt kid nonce aad ctxt r out) ;;; out_ok n out ;;; ret (r, out).
Definition call_hash (input : bytes) (n : Z) : M (Z * bytes) :=
  c <- getc ;; f <- need (f_hash (c_crypto c)) UbNull ;; t <- trace ;;
  let '(r, out) := o_hash f t input n in
  emit (EvHash input n r out) ;;; out_ok n out ;;; ret (r, out).
Definition call_fetch : M (Z * creds) :=
  c <- getc ;; f <- need (f_fetch (c_cred c)) UbNull ;; t <- trace ;;
  let '(r, cr) := o_fetch f t in emit (EvFetch r cr) ;;; ret (r, cr).
Definition call_cverify (cr : creds) : M (Z * creds * bytes) :=
  c <- getc ;; f <- need (f_cverify (c_cred c)) UbNull ;; t <- trace ;;
  let '(r, cr', pub) := o_cverify f t cr in
  emit (EvCredVerify cr r cr' pub) ;;; ret (r, cr', pub).
Definition call_compose (f msg n : Z) : M (Z * list token) :=
  t <- trace ;; let '(r, l) := o_compose f t msg n in
  emit (EvEadCompose msg r l) ;;; ret (r, l).
Definition call_process (f msg : Z) (l : list token) : M Z :=
  t <- trace ;; let r := o_process f t msg l in emit (EvEadProcess msg l r) ;;; ret r.

(** The selected cipher suite: [ctx->csuite[ctx->chosen_csuite_idx]]. *)
Definition csuite_at (c : ctx) (i : Z) : csuite := nth (Z.to_nat i) (c_csuites c) csuite0.
Definition the_suite (c : ctx) : csuite := csuite_at c (c_csuite_idx c).
Definition get_suite : M csuite :=
  c <- getc ;; check (c_csuite_idx c <? cf_max_suites) UbRead ;;; ret (the_suite c).

End Prim.

(** Reads of the context's byte arrays, with their capacities (edhoc_context.h 258-310). *)
Section Arrays.
Context {E : env}.
Definition get_th : M bytes := c <- getc ;; rd cf_max_mac (c_th_len c) (c_th c).
Definition get_prk : M bytes := c <- getc ;; rd cf_max_mac (c_prk_len c) (c_prk c).
Definition get_dh_pub : M bytes := c <- getc ;; rd cf_max_ecc (c_dh_pub_len c) (c_dh_pub c).
Definition get_dh_priv : M bytes := c <- getc ;; rd cf_max_ecc (c_dh_priv_len c) (c_dh_priv c).
Definition get_dh_peer : M bytes := c <- getc ;; rd cf_max_ecc (c_dh_peer_len c) (c_dh_peer c).
Definition get_dh_secret : M bytes :=
  c <- getc ;; rd cf_max_ecc (c_dh_secret_len c) (c_dh_secret c).
(** Writes by callbacks into context arrays. *)
Definition wr (cap : Z) (out : bytes) : M unit := check (zlen out <=? cap) UbWrite.
Definition put_th (out : bytes) : M unit :=
  wr cf_max_mac out ;;; modify (fun c => set_th (blit (c_th c) out) c).
Definition put_prk (out : bytes) : M unit :=
  wr cf_max_mac out ;;; modify (fun c => set_prk (blit (c_prk c) out) c).
Definition put_dh_pub (out : bytes) : M unit :=
  wr cf_max_ecc out ;;; modify (fun c => set_dh_pub (blit (c_dh_pub c) out) c).
Definition put_dh_priv (out : bytes) : M unit :=
  wr cf_max_ecc out ;;; modify (fun c => set_dh_priv (blit (c_dh_priv c) out) c).
Definition put_dh_peer (out : bytes) : M unit :=
  wr cf_max_ecc out ;;; modify (fun c => set_dh_peer (blit (c_dh_peer c) out) c).
Definition put_dh_secret (out : bytes) : M unit :=
  wr cf_max_ecc out ;;; modify (fun c => set_dh_secret (blit (c_dh_secret c) out) c).
End Arrays.
