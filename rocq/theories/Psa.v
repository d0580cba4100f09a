(** The libraries below the ready-made cipher suites in helpers/src: the key store and the
    operations of the PSA Crypto API, and the mbed TLS, compact25519, liboqs and XKCP functions
    the helpers call.

    No code of /repo is modelled here.  The key policies (usage flags, permitted algorithm, key
    type and size) are those of the PSA Crypto API 1.1; cryptographic functions are arbitrary
    functions; every call may be refused for any further reason (memory, driver, argument
    checks not written here), which [x_status] decides from the whole history of calls. *)
From Verif Require Import Bytes Values Monad.

(** ** Algorithms, key attributes *)
Inductive hash_alg := Sha256 | Sha384.
Definition hash_size (h : hash_alg) : Z := match h with Sha256 => 32 | Sha384 => 48 end.
Inductive aead_alg := AesCcm | AesGcm | ChaCha20Poly1305.
(** The curves of PSA_ECC_FAMILY_SECP_R1 with 256 and 384 bits. *)
Inductive curve := P256 | P384.
Inductive alg :=
| AlgNone | AlgEcdh | AlgEcdsa (h : hash_alg) | AlgExtract (h : hash_alg) | AlgExpand (h : hash_alg)
| AlgAead (a : aead_alg) (tag : Z).
Inductive key_type := TyRaw | TyEccPair | TyEccPub | TyDerive | TyAes | TyChaCha.
Inductive usage := UExport | UDerive | USignMsg | USignHash | UVerifyMsg | UVerifyHash | UEncrypt | UDecrypt.
Definition hash_eqb (a b : hash_alg) : bool :=
  match a, b with Sha256, Sha256 | Sha384, Sha384 => true | _, _ => false end.
Definition aead_eqb (a b : aead_alg) : bool :=
  match a, b with AesCcm, AesCcm | AesGcm, AesGcm | ChaCha20Poly1305, ChaCha20Poly1305 => true | _, _ => false end.
Definition alg_eqb (a b : alg) : bool :=
  match a, b with
  | AlgNone, AlgNone | AlgEcdh, AlgEcdh => true
  | AlgEcdsa h, AlgEcdsa k | AlgExtract h, AlgExtract k | AlgExpand h, AlgExpand k => hash_eqb h k
  | AlgAead a s, AlgAead b t => aead_eqb a b && (s =? t)
  | _, _ => false
  end.
Definition usage_eqb (a b : usage) : bool :=
  match a, b with
  | UExport, UExport | UDerive, UDerive | USignMsg, USignMsg | USignHash, USignHash
  | UVerifyMsg, UVerifyMsg | UVerifyHash, UVerifyHash | UEncrypt, UEncrypt | UDecrypt, UDecrypt => true
  | _, _ => false
  end.
(** psa_key_attributes_t; all keys here are volatile. *)
Record attrs := At { a_usage : list usage; a_alg : alg; a_type : key_type; a_bits : Z }.
Definition may_use (u : usage) (a : attrs) : bool := existsb (usage_eqb u) (a_usage a).
Record psa_key := PK { k_attr : attrs; k_data : bytes }.

(** ** Short Weierstrass curves y^2 = x^3 - 3x + b over p (FIPS 186-4 D.1.2.3, D.1.2.4) *)
Definition p256 : Z := 2 ^ 256 - 2 ^ 224 + 2 ^ 192 + 2 ^ 96 - 1.
Definition b256 : Z := 0x5ac635d8aa3a93e7b3ebbd55769886bc651d06b0cc53b0f63bce3c3e27d2604b.
Definition p384 : Z := 2 ^ 384 - 2 ^ 128 - 2 ^ 96 + 2 ^ 32 - 1.
Definition b384 : Z := 0xb3312fa7e23ee7e4988e056be3f82d19181d9c6efe8141120314088f5013875ac656398d8a2ed19d2a85c8edd3ec2aef.
Definition cv_p (c : curve) : Z := match c with P256 => p256 | P384 => p384 end.
Definition cv_b (c : curve) : Z := match c with P256 => b256 | P384 => b384 end.
(** Bytes of a field element. *)
Definition cv_len (c : curve) : Z := match c with P256 => 32 | P384 => 48 end.
Definition on_curve (c : curve) (x y : Z) : bool :=
  (0 <=? x) && (x <? cv_p c) && (0 <=? y) && (y <? cv_p c)
  && ((y * y - (x * x * x - 3 * x + cv_b c)) mod cv_p c =? 0).
Definition curve_of_bits (n : Z) : option curve :=
  if n =? 256 then Some P256 else if n =? 384 then Some P384 else None.
(** An uncompressed point 04 | X | Y. *)
Definition point (c : curve) (x y : Z) : bytes :=
  4 :: be (Z.to_nat (cv_len c)) x ++ be (Z.to_nat (cv_len c)) y.
Definition point_ok (c : curve) (b : bytes) : bool :=
  (zlen b =? 1 + 2 * cv_len c) && (nth 0 b 0 =? 4)
  && on_curve c (unbe (take (cv_len c) (drop 1 b))) (unbe (drop (1 + cv_len c) b)).

(** ** Calls *)
Inductive xcall :=
| XImport (a : attrs) | XGenerate (a : attrs) | XDestroy (id : Z) | XExport (id : Z) | XExportPub (id : Z)
| XAttributes (id : Z) | XRandom | XRawAgreement (id : Z) | XSignHash (id : Z) | XVerifyHash (id : Z)
| XSetup (a : alg) | XInputBytes (salt : bool) | XInputKey (id : Z) | XCapacity | XOutput | XAbort
| XEncrypt (id : Z) | XDecrypt (id : Z) | XHash (h : hash_alg)
| XPkSetup | XPkFree | XGroupLoad (c : curve) | XMpi
| XEdVerify | XKemPair | XKemEncaps | XKemDecaps | XDsaSign | XDsaVerify | XKmac.
(** Status codes (psa/crypto_values.h); 0 is success everywhere. *)
Definition PSA_NOT_PERMITTED := -133.
Definition PSA_INVALID_ARGUMENT := -135.
Definition PSA_INVALID_HANDLE := -136.
Definition PSA_BAD_STATE := -137.
Definition PSA_BUFFER_TOO_SMALL := -138.
Definition PSA_INSUFFICIENT_MEMORY := -141.
Definition PSA_INVALID_SIGNATURE := -149.

Class libs := Libs {
  (** Refusals that depend on neither policy nor arguments; identifiers of new keys; randomness. *)
  x_status : list (xcall * Z) -> xcall -> Z;
  x_fresh : list (xcall * Z) -> list Z -> Z;   (* history, identifiers in use *)
  x_random : list (xcall * Z) -> Z -> bytes;
  (** Hash, HKDF and AEAD. *)
  x_hash : hash_alg -> bytes -> bytes;
  x_extract : hash_alg -> bytes -> bytes -> bytes;           (* salt, ikm *)
  x_expand : hash_alg -> bytes -> bytes -> Z -> bytes;       (* prk, info, length *)
  x_seal : aead_alg -> Z -> bytes -> bytes -> bytes -> bytes -> bytes;   (* tag length, key, nonce, ad, plaintext *)
  x_open : aead_alg -> Z -> bytes -> bytes -> bytes -> bytes -> option bytes;
  (** Elliptic curves: a generated private key, the public point of a private key, the
      x-coordinate of a multiple of a point, ECDSA over a digest. *)
  x_private : list (xcall * Z) -> curve -> bytes;
  x_public : curve -> bytes -> Z * Z;
  x_ecdh : curve -> bytes -> Z -> Z -> bytes;                (* private key, X, Y *)
  x_ecdsa : list (xcall * Z) -> curve -> bytes -> bytes -> bytes;
  x_ecdsa_ok : curve -> bytes -> bytes -> bytes -> bool;     (* public key, digest, signature *)
  (** compact25519. *)
  x_keygen : bytes -> bytes * bytes;                         (* seed; private, public *)
  x_smult : bytes -> bytes -> bytes;                         (* point, scalar *)
  x_ed_sign : bytes -> bytes -> bytes;                       (* private key, message *)
  x_ed_ok : bytes -> bytes -> bytes -> bool;                 (* signature, public key, message *)
  (** ML-KEM-512 and ML-DSA-44 of liboqs, SHAKE256, KMAC256 of XKCP with bit lengths. *)
  x_kem_pair : list (xcall * Z) -> bytes * bytes;            (* encapsulation, decapsulation key *)
  x_encaps : list (xcall * Z) -> bytes -> bytes * bytes;     (* ciphertext, shared secret *)
  x_decaps : bytes -> bytes -> bytes;                        (* ciphertext, decapsulation key *)
  x_dsa_sign : list (xcall * Z) -> bytes -> bytes -> bytes;
  x_dsa_ok : bytes -> bytes -> bytes -> bool;                (* message, signature, public key *)
  x_shake : bytes -> Z -> bytes;
  x_kmac : bytes -> bytes -> Z -> bytes -> bytes             (* key, input, output bits, customization *)
}.

(** ** State and monad *)
(** A key derivation operation. *)
Record kdf := Kdf { d_alg : alg; d_salt : option bytes; d_key : option bytes; d_info : option bytes; d_cap : Z }.
(** A static key slot of the post-quantum suite (edhoc_exp_pqc_cipher_suite_1.c 69-74); the
    first [sl_len] bytes of the material count. *)
Record slot := Sl { sl_used : bool; sl_type : Z; sl_material : bytes; sl_len : Z }.
Record xst := Xs { x_keys : list (Z * psa_key); x_op : option kdf; x_pk : bool;
                   x_slots : list slot; x_log : list (xcall * Z) }.
Inductive xres (A : Type) := XRet (a : A) (s : xst) | XUb (u : ub).
Arguments XRet {A} a s.
Arguments XUb {A} u.
Definition X (A : Type) := xst -> xres A.
Definition xret {A} (a : A) : X A := fun s => XRet a s.
Definition xbind {A B} (m : X A) (k : A -> X B) : X B :=
  fun s => match m s with XRet a s' => k a s' | XUb u => XUb u end.
Definition xfault {A} (u : ub) : X A := fun _ => XUb u.
Definition xcheck (b : bool) (u : ub) : X unit := if b then xret tt else xfault u.
Definition xneed {A} (o : option A) : X A := match o with Some a => xret a | None => xfault UbNull end.
Notation "x <~ m ;; k" := (xbind m (fun x => k)) (at level 100, m at next level, right associativity).
Notation "' p <~ m ;; k" := (xbind m (fun x => match x with p => k end))
  (at level 100, p pattern, m at next level, right associativity).
Notation "m ;~ k" := (xbind m (fun _ => k)) (at level 100, right associativity).

Definition find_key (id : Z) (l : list (Z * psa_key)) : option psa_key :=
  match find (fun e => fst e =? id) l with Some (_, k) => Some k | None => None end.
Definition drop_key (id : Z) (l : list (Z * psa_key)) : list (Z * psa_key) :=
  filter (fun e => negb (fst e =? id)) l.

Definition set_keys (l : list (Z * psa_key)) (s : xst) : xst := Xs l (x_op s) (x_pk s) (x_slots s) (x_log s).
Definition set_op (o : option kdf) (s : xst) : xst := Xs (x_keys s) o (x_pk s) (x_slots s) (x_log s).
Definition set_pk (b : bool) (s : xst) : xst := Xs (x_keys s) (x_op s) b (x_slots s) (x_log s).
Definition set_slots (l : list slot) (s : xst) : xst := Xs (x_keys s) (x_op s) (x_pk s) l (x_log s).
Definition log (c : xcall) (r : Z) (s : xst) : xst :=
  Xs (x_keys s) (x_op s) (x_pk s) (x_slots s) ((c, r) :: x_log s).

Section Psa.
Context {L : libs}.

(** A call: refused by [x_status], else [f] gives status, result and the state it leaves. *)
Definition xdo {A} (c : xcall) (bad : A) (f : xst -> Z * A * xst) : X (Z * A) :=
  fun s =>
    let e := x_status (x_log s) c in
    if e =? 0 then let '(r, a, s') := f s in XRet (r, a) (log c r s')
    else XRet (e, bad) (log c e s).
(** A call that only looks at the state. *)
Definition xget {A} (c : xcall) (bad : A) (f : xst -> Z * A) : X (Z * A) :=
  xdo c bad (fun s => let '(r, a) := f s in (r, a, s)).

(** Size of a key of type [t] and [bits] in bytes: what PSA accepts on import.  Keys are not
    empty and have at most PSA_MAX_KEY_BITS (0xfff8) bits. *)
Definition MAX_KEY := 8191.
Definition import_ok (a : attrs) (data : bytes) : bool :=
  let n := a_bits a / 8 in
  match a_type a with
  | TyRaw | TyDerive => (zlen data =? n) && (0 <? n) && (n <=? MAX_KEY)
  | TyAes => (zlen data =? n) && ((n =? 16) || (n =? 24) || (n =? 32))
  | TyChaCha => (zlen data =? n) && (n =? 32)
  | TyEccPair => zlen data =? n
  | TyEccPub => match curve_of_bits (a_bits a) with Some c => point_ok c data | None => false end
  end.
(** Volatile keys get identifiers from 0x40000000 to 0x7fffffff (PSA_KEY_ID_VENDOR_MIN, _MAX). *)
Definition KEY_IDS := 0x40000000.
Definition psa_import_key (a : attrs) (data : bytes) : X (Z * Z) :=
  xdo (XImport a) 0 (fun s =>
    if negb (zlen (x_keys s) <? KEY_IDS) then (PSA_INSUFFICIENT_MEMORY, 0, s)
    else if import_ok a data then
      let id := x_fresh (x_log s) (map fst (x_keys s)) in (0, id, set_keys ((id, PK a data) :: x_keys s) s)
    else (PSA_INVALID_ARGUMENT, 0, s)).
Definition psa_generate_key (a : attrs) : X (Z * Z) :=
  xdo (XGenerate a) 0 (fun s =>
    if negb (zlen (x_keys s) <? KEY_IDS) then (PSA_INSUFFICIENT_MEMORY, 0, s) else
    match a_type a, curve_of_bits (a_bits a) with
    | TyEccPair, Some c =>
      let id := x_fresh (x_log s) (map fst (x_keys s)) in
      (0, id, set_keys ((id, PK a (x_private (x_log s) c)) :: x_keys s) s)
    | _, _ => (PSA_INVALID_ARGUMENT, 0, s)
    end).
Definition psa_destroy_key (id : Z) : X (Z * unit) :=
  xdo (XDestroy id) tt (fun s =>
    if id =? 0 then (0, tt, s)
    else match find_key id (x_keys s) with
         | Some _ => (0, tt, set_keys (drop_key id (x_keys s)) s)
         | None => (PSA_INVALID_HANDLE, tt, s)
         end).
Definition psa_export_key (id size : Z) : X (Z * bytes) :=
  xget (XExport id) [] (fun s =>
    match find_key id (x_keys s) with
    | None => (PSA_INVALID_HANDLE, [])
    | Some k => if may_use UExport (k_attr k) then
                  if zlen (k_data k) <=? size then (0, k_data k) else (PSA_BUFFER_TOO_SMALL, [])
                else (PSA_NOT_PERMITTED, [])
    end).
Definition psa_export_public_key (id size : Z) : X (Z * bytes) :=
  xget (XExportPub id) [] (fun s =>
    match find_key id (x_keys s) with
    | None => (PSA_INVALID_HANDLE, [])
    | Some k =>
      match a_type (k_attr k), curve_of_bits (a_bits (k_attr k)) with
      | TyEccPair, Some c =>
        let '(x, y) := x_public c (k_data k) in
        let b := point c x y in
        if zlen b <=? size then (0, b) else (PSA_BUFFER_TOO_SMALL, [])
      | _, _ => (PSA_INVALID_ARGUMENT, [])
      end
    end).
Definition psa_get_key_attributes (id : Z) : X (Z * attrs) :=
  xget (XAttributes id) (At [] AlgNone TyRaw 0) (fun s =>
    match find_key id (x_keys s) with
    | None => (PSA_INVALID_HANDLE, At [] AlgNone TyRaw 0)
    | Some k => (0, k_attr k)
    end).
Definition psa_generate_random (n : Z) : X (Z * bytes) :=
  xget XRandom [] (fun s => (0, x_random (x_log s) n)).
(** The peer's key must be a point of the curve. *)
Definition psa_raw_key_agreement (a : alg) (id : Z) (peer : bytes) (size : Z) : X (Z * bytes) :=
  xget (XRawAgreement id) [] (fun s =>
    match find_key id (x_keys s) with
    | None => (PSA_INVALID_HANDLE, [])
    | Some k =>
      if may_use UDerive (k_attr k) && alg_eqb (a_alg (k_attr k)) a then
        match a, a_type (k_attr k), curve_of_bits (a_bits (k_attr k)) with
        | AlgEcdh, TyEccPair, Some c =>
          if point_ok c peer then
            let out := x_ecdh c (k_data k) (unbe (take (cv_len c) (drop 1 peer))) (unbe (drop (1 + cv_len c) peer)) in
            if zlen out <=? size then (0, out) else (PSA_BUFFER_TOO_SMALL, [])
          else (PSA_INVALID_ARGUMENT, [])
        | _, _, _ => (PSA_INVALID_ARGUMENT, [])
        end
      else (PSA_NOT_PERMITTED, [])
    end).
Definition psa_sign_hash (id : Z) (a : alg) (digest : bytes) (size : Z) : X (Z * bytes) :=
  xget (XSignHash id) [] (fun s =>
    match find_key id (x_keys s) with
    | None => (PSA_INVALID_HANDLE, [])
    | Some k =>
      if may_use USignHash (k_attr k) && alg_eqb (a_alg (k_attr k)) a then
        match a, a_type (k_attr k), curve_of_bits (a_bits (k_attr k)) with
        | AlgEcdsa h, TyEccPair, Some c =>
          if zlen digest =? hash_size h then
            let out := x_ecdsa (x_log s) c (k_data k) digest in
            if zlen out <=? size then (0, out) else (PSA_BUFFER_TOO_SMALL, [])
          else (PSA_INVALID_ARGUMENT, [])
        | _, _, _ => (PSA_INVALID_ARGUMENT, [])
        end
      else (PSA_NOT_PERMITTED, [])
    end).
Definition psa_verify_hash (id : Z) (a : alg) (digest sign : bytes) : X (Z * unit) :=
  xget (XVerifyHash id) tt (fun s =>
    match find_key id (x_keys s) with
    | None => (PSA_INVALID_HANDLE, tt)
    | Some k =>
      if may_use UVerifyHash (k_attr k) && alg_eqb (a_alg (k_attr k)) a then
        match a, a_type (k_attr k), curve_of_bits (a_bits (k_attr k)) with
        | AlgEcdsa h, TyEccPub, Some c =>
          if zlen digest =? hash_size h then
            (if x_ecdsa_ok c (k_data k) digest sign then 0 else PSA_INVALID_SIGNATURE, tt)
          else (PSA_INVALID_ARGUMENT, tt)
        | _, _, _ => (PSA_INVALID_ARGUMENT, tt)
        end
      else (PSA_NOT_PERMITTED, tt)
    end).

(** Key derivation with HKDF-Extract (inputs: salt, secret) and HKDF-Expand (secret, info). *)
Definition psa_key_derivation_setup (a : alg) : X (Z * unit) :=
  xdo (XSetup a) tt (fun s =>
    match x_op s, a with
    | Some _, _ => (PSA_BAD_STATE, tt, s)
    | None, AlgExtract h => (0, tt, set_op (Some (Kdf a None None None (hash_size h))) s)
    | None, AlgExpand h => (0, tt, set_op (Some (Kdf a None None None (255 * hash_size h))) s)
    | None, _ => (PSA_INVALID_ARGUMENT, tt, s)
    end).
Definition psa_key_derivation_input_bytes (salt : bool) (b : bytes) : X (Z * unit) :=
  xdo (XInputBytes salt) tt (fun s =>
    match x_op s with
    | None => (PSA_BAD_STATE, tt, s)
    | Some d =>
      match d_alg d, salt with
      | AlgExtract _, true =>
        match d_salt d with
        | None => (0, tt, set_op (Some (Kdf (d_alg d) (Some b) (d_key d) (d_info d) (d_cap d))) s)
        | Some _ => (PSA_BAD_STATE, tt, s)
        end
      | AlgExpand _, false =>
        match d_info d with
        | None => (0, tt, set_op (Some (Kdf (d_alg d) (d_salt d) (d_key d) (Some b) (d_cap d))) s)
        | Some _ => (PSA_BAD_STATE, tt, s)
        end
      | _, _ => (PSA_INVALID_ARGUMENT, tt, s)
      end
    end).
Definition psa_key_derivation_input_key (id : Z) : X (Z * unit) :=
  xdo (XInputKey id) tt (fun s =>
    match x_op s, find_key id (x_keys s) with
    | None, _ => (PSA_BAD_STATE, tt, s)
    | _, None => (PSA_INVALID_HANDLE, tt, s)
    | Some d, Some k =>
      if may_use UDerive (k_attr k) && alg_eqb (a_alg (k_attr k)) (d_alg d) then
        match a_type (k_attr k), d_key d with
        | TyDerive, None =>
          (0, tt, set_op (Some (Kdf (d_alg d) (d_salt d) (Some (k_data k)) (d_info d) (d_cap d))) s)
        | _, _ => (PSA_BAD_STATE, tt, s)
        end
      else (PSA_NOT_PERMITTED, tt, s)
    end).
Definition psa_key_derivation_set_capacity (n : Z) : X (Z * unit) :=
  xdo XCapacity tt (fun s =>
    match x_op s with
    | None => (PSA_BAD_STATE, tt, s)
    | Some d =>
      if n <=? d_cap d then (0, tt, set_op (Some (Kdf (d_alg d) (d_salt d) (d_key d) (d_info d) n)) s)
      else (PSA_INVALID_ARGUMENT, tt, s)
    end).
Definition psa_key_derivation_output_bytes (n : Z) : X (Z * bytes) :=
  xget XOutput [] (fun s =>
    match x_op s with
    | Some (Kdf (AlgExtract h) (Some salt) (Some key) _ cap) =>
      if n <=? cap then (0, take n (x_extract h salt key)) else (PSA_INVALID_ARGUMENT, [])
    | Some (Kdf (AlgExpand h) _ (Some key) (Some info) cap) =>
      if n <=? cap then (0, x_expand h key info n) else (PSA_INVALID_ARGUMENT, [])
    | _ => (PSA_BAD_STATE, [])
    end).
Definition psa_key_derivation_abort : X unit := fun s => XRet tt (log XAbort 0 (set_op None s)).

Definition psa_aead_encrypt (id : Z) (a : alg) (nonce ad ptxt : bytes) (size : Z) : X (Z * bytes) :=
  xget (XEncrypt id) [] (fun s =>
    match find_key id (x_keys s) with
    | None => (PSA_INVALID_HANDLE, [])
    | Some k =>
      if may_use UEncrypt (k_attr k) && alg_eqb (a_alg (k_attr k)) a then
        match a with
        | AlgAead f t =>
          let out := x_seal f t (k_data k) nonce ad ptxt in
          if zlen out <=? size then (0, out) else (PSA_BUFFER_TOO_SMALL, [])
        | _ => (PSA_INVALID_ARGUMENT, [])
        end
      else (PSA_NOT_PERMITTED, [])
    end).
Definition psa_aead_decrypt (id : Z) (a : alg) (nonce ad ctxt : bytes) (size : Z) : X (Z * bytes) :=
  xget (XDecrypt id) [] (fun s =>
    match find_key id (x_keys s) with
    | None => (PSA_INVALID_HANDLE, [])
    | Some k =>
      if may_use UDecrypt (k_attr k) && alg_eqb (a_alg (k_attr k)) a then
        match a with
        | AlgAead f t =>
          match x_open f t (k_data k) nonce ad ctxt with
          | Some out => if zlen out <=? size then (0, out) else (PSA_BUFFER_TOO_SMALL, [])
          | None => (PSA_INVALID_SIGNATURE, [])
          end
        | _ => (PSA_INVALID_ARGUMENT, [])
        end
      else (PSA_NOT_PERMITTED, [])
    end).
Definition psa_hash_compute (h : hash_alg) (input : bytes) (size : Z) : X (Z * bytes) :=
  xget (XHash h) [] (fun s =>
    let out := x_hash h input in if zlen out <=? size then (0, out) else (PSA_BUFFER_TOO_SMALL, [])).

(** mbed TLS: a public-key context that owns a curve group; big-number operations. *)
Definition mbedtls_pk_setup : X (Z * unit) := xdo XPkSetup tt (fun s => (0, tt, set_pk true s)).
Definition mbedtls_pk_free : X unit := fun s => XRet tt (log XPkFree 0 (set_pk false s)).
Definition mbedtls_ecp_group_load (c : curve) : X (Z * unit) := xget (XGroupLoad c) tt (fun _ => (0, tt)).
(** One operation with result [v]. *)
Definition mpi (v : Z) : X (Z * Z) := xget XMpi 0 (fun _ => (0, v)).
End Psa.
