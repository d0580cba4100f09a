(** Calls of the experimental post-quantum suite through its function tables, and histories of
    them: edhoc_exp_pqc_cipher_suite_1.c 792-809. *)
From Verif Require Import Bytes Values Monad Psa SuitePqc SuiteCalls.

Inductive qcall :=
| QImport (kt : Z) (raw : bytes) (kid : option Z)
| QDestroy (kid : option Z)
| QMkPair (kid priv : option Z) (plen : bool) (pub : option Z) (ulen : bool)
| QEncaps (peer : option bytes) (ct : option Z) (clen : bool) (ss : option Z) (slen : bool)
| QDecaps (kid : option Z) (ct : option bytes) (ss : option Z) (slen : bool)
| QSign (kid : option Z) (input : option bytes) (out : option Z) (olen : bool)
| QVerify (kid : option Z) (input sign : option bytes)
| QHash (input : option bytes) (out : option Z) (olen : bool)
| QExtract (kid : option Z) (salt : option bytes) (out : option Z) (olen : bool)
| QExpand (kid : option Z) (info : option bytes) (out : option Z)
| QEncrypt (kid : option Z) (nonce : option bytes) (ad ptxt : bytes) (out : option Z) (olen : bool)
| QDecrypt (kid : option Z) (nonce : option bytes) (ad : bytes) (ctxt : option bytes) (out : option Z) (olen : bool).

Section Calls.
Context {L : libs}.
Definition out2 (m : X (Z * bytes * bytes)) : X hout := '(r, a, b) <~ m ;; xret (HO r None a b).
Definition qrun (a : qcall) : X hout :=
  match a with
  | QImport kt raw kid => outk (q_key_import kt raw kid)
  | QDestroy kid => outk (q_key_destroy kid)
  | QMkPair kid np pl nu ul => out2 (q_make_key_pair kid np pl nu ul)
  | QEncaps peer ct cl ss sl => out2 (q_encapsulate peer ct cl ss sl)
  | QDecaps kid ct ss sl => out1 (q_decapsulate kid ct ss sl)
  | QSign kid i n l => out1 (q_signature kid i n l)
  | QVerify kid i sg => r <~ q_verify kid i sg ;; xret (HO r None [] [])
  | QHash i n l => out1 (q_hash i n l)
  | QExtract kid sa n l => out1 (q_extract kid sa n l)
  | QExpand kid i n => out1 (q_expand kid i n)
  | QEncrypt kid iv ad p n l => out1 (q_encrypt kid iv ad p n l)
  | QDecrypt kid iv ad c n l => out1 (q_decrypt kid iv ad c n l)
  end.
Fixpoint qruns (l : list qcall) (s : xst) : xres (list (qcall * hout)) :=
  match l with
  | [] => XRet [] s
  | a :: r => match qrun a s with
              | XUb u => XUb u
              | XRet o s1 => match qruns r s1 with XUb u => XUb u | XRet os s2 => XRet ((a, o) :: os) s2 end
              end
  end.
End Calls.
