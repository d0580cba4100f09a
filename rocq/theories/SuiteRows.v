(** The ready-made suites against the table of RFC 9528 (C50). *)
From Verif Require Import Bytes Values Psa SuiteX SuiteW SuiteCalls SuiteSpec SuiteClaims SuiteTable.

(** The elliptic curve of a suite; those for curve 25519 have none. *)
Definition curve_of (S : suite) : option curve := match S with SX _ => None | SW w => Some (ws_curve w) end.
Lemma parameters S : shipped S -> exists r, rfc_row (cs_value (table S)) = Some r /\
  aead_of S = r_aead r /\ hash_of S = r_hash r /\ curve_of S = r_curve r /\
  cs_key (table S) = r_key r /\ cs_tag (table S) = r_tag r /\ cs_iv (table S) = r_iv r /\
  cs_hash (table S) = hash_size (r_hash r) /\ cs_mac (table S) = r_mac r /\
  cs_ecc (table S) = r_coord r /\ cs_sign (table S) = 2 * r_coord r.
Proof. intros H. destruct (shipped_cases _ H) as [-> | [-> | [-> | ->]]]; eexists; split; try reflexivity; repeat split. Qed.
