(** Calls of the ready-made classic suites through their function tables, and histories of them.

    Models the tables [edhoc_cipher_suite_x_keys], [edhoc_cipher_suite_x_crypto]
    (edhoc_cipher_suite_0.c, _4.c 571-586; _2.c 790-805; _24.c 791-806). *)
From Verif Require Import Bytes Values Monad Psa SuiteX SuiteW.

Inductive hcall :=
| HImport (kt : Z) (raw : bytes) (kid : option Z)
| HDestroy (kid : option Z)
| HMkPair (kid priv : option Z) (plen : bool) (pub : option Z) (ulen : bool)
| HAgree (kid : option Z) (peer : option bytes) (out : option Z) (olen : bool)
| HSign (kid : option Z) (input : option bytes) (out : option Z) (olen : bool)
| HVerify (kid : option Z) (input sign : option bytes)
| HExtract (kid : option Z) (salt : option bytes) (out : option Z) (olen : bool)
| HExpand (kid : option Z) (info : option bytes) (out : option Z)
| HEncrypt (kid : option Z) (nonce ad : option bytes) (ptxt : bytes) (out : option Z) (olen : bool)
| HDecrypt (kid : option Z) (nonce ad ctxt : option bytes) (n : Z) (olen : bool)
| HHash (input : option bytes) (out : option Z) (olen : bool).
(** Return value, what is left behind the key-identifier pointer (import and destroy), and the
    outputs (of a key pair: private, public). *)
Record hout := HO { ho_ret : Z; ho_kid : option Z; ho_1 : bytes; ho_2 : bytes }.

Inductive suite := SX (s : xsuite) | SW (s : wsuite).
Definition table (S : suite) : csuite := match S with SX s => xs_table s | SW s => ws_table s end.
Definition hash_of (S : suite) : hash_alg := match S with SX _ => Sha256 | SW s => ws_hash s end.
Definition aead_of (S : suite) : aead_alg := match S with SX s => xs_aead s | SW s => ws_aead s end.
Definition shipped (S : suite) : Prop := In S [SX suite_0; SX suite_4; SW suite_2; SW suite_24].

Section Calls.
Context {L : libs} (S : suite).
Definition out1 (m : X (Z * bytes)) : X hout := '(r, b) <~ m ;; xret (HO r None b []).
Definition outk (m : X (Z * option Z)) : X hout := '(r, k) <~ m ;; xret (HO r k [] []).
Definition hrun (a : hcall) : X hout :=
  match a with
  | HImport kt raw kid => outk (match S with SX s => x_key_import s kt raw kid | SW s => w_key_import s kt raw kid end)
  | HDestroy kid => outk (match S with SX _ => x_key_destroy kid | SW _ => w_key_destroy kid end)
  | HMkPair kid np pl nu ul =>
    '(r, a, b) <~ match S with SX _ => x_make_key_pair kid np pl nu ul | SW s => w_make_key_pair s kid np pl nu ul end ;;
    xret (HO r None a b)
  | HAgree kid p n l => out1 (match S with SX _ => x_key_agreement kid p n l | SW s => w_key_agreement s kid p n l end)
  | HSign kid i n l => out1 (match S with SX _ => x_signature kid i n l | SW s => w_signature s kid i n l end)
  | HVerify kid i sg => r <~ match S with SX _ => x_verify kid i sg | SW s => w_verify s kid i sg end ;; xret (HO r None [] [])
  | HExtract kid sa n l => out1 (s_extract kid sa n l)
  | HExpand kid i n => out1 (s_expand kid i n)
  | HEncrypt kid iv ad p n l => out1 (s_encrypt kid iv ad p n l)
  | HDecrypt kid iv ad c n l => out1 (s_decrypt kid iv ad c n l)
  | HHash i n l => out1 (s_hash (hash_of S) i n l)
  end.
Fixpoint hruns (l : list hcall) (s : xst) : xres (list (hcall * hout)) :=
  match l with
  | [] => XRet [] s
  | a :: r => match hrun a s with
              | XUb u => XUb u
              | XRet o s1 => match hruns r s1 with XUb u => XUb u | XRet os s2 => XRet ((a, o) :: os) s2 end
              end
  end.
End Calls.
