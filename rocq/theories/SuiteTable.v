(** The cipher suites of RFC 9528 10.2 that the library ships.

    Specification only: no code of /repo is modelled here.  AEAD parameters are those of RFC 9053
    4 (nonce of 13 bytes for AES-CCM-16, 12 otherwise); X25519 and Ed25519 have keys of 32 bytes
    and signatures of 64, P-256 and P-384 coordinates of 32 and 48 bytes and ES256 and ES384
    signatures of two numbers of that size. *)
From Verif Require Import Bytes Values Psa.

(** The AEAD with its key, tag and nonce lengths; the hash; the length of a MAC in static
    Diffie-Hellman; the elliptic curve, [None] for curve 25519. *)
Record row := Row { r_aead : aead_alg; r_key : Z; r_tag : Z; r_iv : Z; r_hash : hash_alg; r_mac : Z; r_curve : option curve }.
Definition rfc_row (value : Z) : option row :=
  match value with
  | 0 => Some (Row AesCcm 16 8 13 Sha256 8 None)
  | 2 => Some (Row AesCcm 16 8 13 Sha256 8 (Some P256))
  | 4 => Some (Row ChaCha20Poly1305 32 16 12 Sha256 16 None)
  | 24 => Some (Row AesGcm 32 16 12 Sha384 16 (Some P384))
  | _ => None
  end.
Definition r_coord (r : row) : Z := match r_curve r with Some c => cv_len c | None => 32 end.
