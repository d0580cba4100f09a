(** What users of the experimental post-quantum suite rely on.  No proofs here. *)
From Verif Require Import Bytes Values Monad Psa SuiteCalls SuitePqc PqcCalls SuiteSpec.

(** Program start: empty key store, free slots. *)
Definition qs0 : xst := Xs [] None false slots0 [].
Definition qreached {L : libs} (h : list (qcall * hout)) (s : xst) : Prop := exists l, qruns l qs0 = XRet h s.
(** Sizes of the ML-KEM-512 and ML-DSA-44 outputs, SHAKE256 and KMAC256. *)
Record qsized (L : libs) : Prop := {
  qz_pair : forall l, zlen (fst (x_kem_pair l)) = EK_LEN /\ zlen (snd (x_kem_pair l)) = DK_LEN;
  qz_encaps : forall l pk, zlen (fst (x_encaps l pk)) = CT_LEN /\ zlen (snd (x_encaps l pk)) = SS_LEN;
  qz_decaps : forall c k, zlen (x_decaps c k) = SS_LEN;
  qz_sign : forall l m k, 0 < zlen (x_dsa_sign l m k) <= SIG_LEN;
  qz_shake : forall i n, 0 <= n -> zlen (x_shake i n) = n;
  qz_kmac : forall k i n c, 0 <= n -> zlen (x_kmac k i (8 * n) c) = n
}.
(** The history [h], oldest first: handle [id] was handed out for a key pair and not destroyed. *)
Definition open_slot (h : list (qcall * hout)) (id : Z) : Prop :=
  exists h1 h2 raw k, h = h1 ++ (QImport KT_MAKE_KEY_PAIR raw k, HO OK (Some id) [] []) :: h2
    /\ forall o, ~ In (QDestroy (Some id), o) h2.
(** ... and [dk] is the private key of the pair made last under that handle. *)
Definition holds_pair (h : list (qcall * hout)) (id : Z) (dk : bytes) : Prop :=
  exists h1 h2 np nu pk, h = h1 ++ (QMkPair (Some id) np true nu true, HO OK None dk pk) :: h2
    /\ (forall o, ~ In (QDestroy (Some id), o) h2)
    /\ (forall np' pl nu' ul o, In (QMkPair (Some id) np' pl nu' ul, o) h2 -> ho_ret o <> OK).
(** A key other than a key pair that was imported and not destroyed since. *)
Definition qimported (h : list (qcall * hout)) (id kt : Z) (raw : bytes) : Prop :=
  kt <> KT_MAKE_KEY_PAIR /\
  exists h1 h2 k, h = h1 ++ (QImport kt raw k, HO OK (Some id) [] []) :: h2
    /\ forall o, In (QDestroy (Some id), o) h2 -> ho_ret o <> OK.
(** The bytes an operation on a private or secret key works with: the pair made last under the
    handle, or a key imported for any purpose but encryption and decryption. *)
Definition material (h : list (qcall * hout)) (id : Z) (b : bytes) : Prop :=
  holds_pair h id b \/ exists kt, qimported h id kt b /\ KT_KEY_AGREEMENT <= kt <= KT_EXPAND.
(** The bytes that can be imported for a purpose. *)
Definition qimportable (kt : Z) (raw : bytes) : Prop :=
  KT_KEY_AGREEMENT <= kt <= KT_EXPAND /\ 0 < zlen raw <= MAX_KEY
  \/ (kt = KT_ENCRYPT \/ kt = KT_DECRYPT) /\ zlen raw = pt_key pqc_suite.
(** Everything the function needs is there. *)
Definition given {A} (o : option A) : bool := match o with Some _ => true | None => false end.
Definition qcomplete (a : qcall) : bool :=
  match a with
  | QImport _ _ k | QDestroy k => given k
  | QMkPair k p pl u ul => given k && room p && room u && pl && ul
  | QEncaps p c cl s sl => given p && given c && given s && cl && sl
  | QDecaps k c n l => given k && given c && given n && l
  | QSign k i n l => given k && given i && given n && l
  | QVerify k i g => given k && given i && given g
  | QHash i n l => given i && given n && l
  | QExtract k sa n l => given k && filled sa && given n && l
  | QExpand k i n => given k && filled i && room n
  | QEncrypt k iv _ _ n l => given k && given iv && given n && l
  | QDecrypt k iv _ c n l => given k && given iv && given c && given n && l
  end.
(** Sizes of the buffers for the outputs. *)
Definition qroom_1 (a : qcall) : option Z :=
  match a with
  | QMkPair _ n _ _ _ | QEncaps _ n _ _ _ | QDecaps _ _ n _ | QSign _ _ n _ | QHash _ n _ | QExtract _ _ n _
  | QExpand _ _ n | QEncrypt _ _ _ _ n _ | QDecrypt _ _ _ _ n _ => n
  | _ => None
  end.
Definition qroom_2 (a : qcall) : option Z :=
  match a with QMkPair _ _ _ n _ | QEncaps _ _ _ n _ => n | _ => None end.
(** Decapsulation undoes encapsulation (libraries of two devices). *)
Definition kem_correct (A B : libs) : Prop :=
  forall l m, @x_decaps A (fst (@x_encaps B m (fst (@x_kem_pair A l)))) (snd (@x_kem_pair A l))
              = snd (@x_encaps B m (fst (@x_kem_pair A l))).
