(** What users of the ready-made cipher suites rely on.  No proofs here. *)
From Verif Require Import Bytes Values Monad Psa SuiteX SuiteW SuiteCalls.

(** ** Contracts of the libraries below the suites *)
(** A new key gets an identifier that is not in use. *)
Definition fresh_ids (L : libs) : Prop :=
  forall l ids, zlen ids < KEY_IDS -> ~ In (x_fresh l ids) ids /\ 0x40000000 <= x_fresh l ids <= 0x7fffffff.
(** Sizes of the outputs. *)
Record sized (L : libs) : Prop := {
  sz_hash : forall h i, zlen (x_hash h i) = hash_size h;
  sz_extract : forall h a b, zlen (x_extract h a b) = hash_size h;
  sz_expand : forall h a b n, 0 <= n -> zlen (x_expand h a b n) = n;
  sz_seal : forall a t k iv ad p, 0 <= t -> zlen (x_seal a t k iv ad p) = zlen p + t;
  sz_private : forall l c, zlen (x_private l c) = cv_len c;
  sz_public : forall c k, on_curve c (fst (x_public c k)) (snd (x_public c k)) = true;
  sz_ecdh : forall c k x y, zlen (x_ecdh c k x y) = cv_len c;
  sz_ecdsa : forall l c k d, zlen (x_ecdsa l c k d) = 2 * cv_len c;
  sz_keygen : forall s, zlen (fst (x_keygen s)) = 32 /\ zlen (snd (x_keygen s)) = 32;
  sz_smult : forall p k, zlen (x_smult p k) = 32;
  sz_ed : forall k m, zlen (x_ed_sign k m) = 64
}.
(** No call is refused for a reason outside policy and arguments. *)
Definition willing (L : libs) : Prop := forall l c, x_status l c = 0.

(** ** Calls *)
(** Everything the function needs is there: no NULL pointer and no empty string. *)
Definition filled (b : option bytes) : bool := match b with Some l => negb (zlen l =? 0) | None => false end.
Definition room (n : option Z) : bool := match n with Some k => negb (k =? 0) | None => false end.
Definition handle (k : option Z) : bool := match k with Some _ => true | None => false end.
Definition complete (a : hcall) : bool :=
  match a with
  | HImport _ _ k | HDestroy k => handle k
  | HMkPair k p pl u ul => handle k && room p && room u && pl && ul
  | HAgree k p n l => handle k && filled p && room n && l
  | HSign k i n l => handle k && filled i && room n && l
  | HVerify k i sg => handle k && filled i && filled sg
  | HExtract k sa n l => handle k && filled sa && room n && l
  | HExpand k i n => handle k && filled i && room n
  | HEncrypt k iv ad _ n l => handle k && filled iv && filled ad && room n && l
  | HDecrypt k iv ad c _ l => handle k && filled iv && filled ad && filled c && l
  | HHash i n l => filled i && room n && l
  end.
(** The handle an operation works with, and the purpose that operation needs. *)
Definition handle_of (a : hcall) : option Z :=
  match a with
  | HImport _ _ _ | HHash _ _ _ => None
  | HDestroy k | HMkPair k _ _ _ _ | HAgree k _ _ _ | HSign k _ _ _ | HVerify k _ _ | HExtract k _ _ _
  | HExpand k _ _ | HEncrypt k _ _ _ _ _ | HDecrypt k _ _ _ _ _ => k
  end.
Definition purpose (a : hcall) : option Z :=
  match a with
  | HImport _ _ _ | HHash _ _ _ | HDestroy _ => None
  | HMkPair _ _ _ _ _ => Some KT_MAKE_KEY_PAIR
  | HAgree _ _ _ _ => Some KT_KEY_AGREEMENT
  | HSign _ _ _ _ => Some KT_SIGNATURE
  | HVerify _ _ _ => Some KT_VERIFY
  | HExtract _ _ _ _ => Some KT_EXTRACT
  | HExpand _ _ _ => Some KT_EXPAND
  | HEncrypt _ _ _ _ _ _ => Some KT_ENCRYPT
  | HDecrypt _ _ _ _ _ _ => Some KT_DECRYPT
  end.
(** Sizes of the buffers for the outputs; only key pairs have a second one. *)
Definition room_1 (a : hcall) : option Z :=
  match a with
  | HMkPair _ n _ _ _ | HAgree _ _ n _ | HSign _ _ n _ | HExtract _ _ n _ | HExpand _ _ n | HEncrypt _ _ _ _ n _
  | HHash _ n _ => n
  | HDecrypt _ _ _ _ n _ => Some n
  | _ => None
  end.
Definition room_2 (a : hcall) : option Z := match a with HMkPair _ _ _ n _ => n | _ => None end.

(** ** Histories *)
(** Nothing is open: no key derivation operation, no public-key context. *)
Definition closed (s : xst) : Prop := x_op s = None /\ x_pk s = false.
Definition xs0 : xst := Xs [] None false [] [].
(** What the calls [h], oldest first, returned: [id] is the handle of a key that was imported for
    purpose [kt] with bytes [raw], and has not been destroyed since. *)
Definition imported (h : list (hcall * hout)) (id kt : Z) (raw : bytes) : Prop :=
  exists h1 h2 k, h = h1 ++ (HImport kt raw k, HO OK (Some id) [] []) :: h2
    /\ forall o, In (HDestroy (Some id), o) h2 -> ho_ret o <> OK.
(** [h] is a history of calls from an empty key store, [s] what it left. *)
Definition reached {L : libs} (S : suite) (h : list (hcall * hout)) (s : xst) : Prop :=
  exists l, hruns S l xs0 = XRet h s.
(** The purposes for which the suite keeps a key: all, except that the X25519 suites make key
    pairs without one. *)
Definition kept (S : suite) (kt : Z) : Prop :=
  1 <= kt <= 7 \/ (kt = KT_MAKE_KEY_PAIR /\ exists w, S = SW w).
(** The bytes that can be imported for a purpose. *)
Definition importable (S : suite) (kt : Z) (raw : bytes) : Prop :=
  match S with
  | SX _ => kt = KT_KEY_AGREEMENT /\ zlen raw = 32 \/ kt = KT_SIGNATURE /\ zlen raw = 64
            \/ kt = KT_VERIFY /\ zlen raw = 32
  | SW w => (kt = KT_KEY_AGREEMENT \/ kt = KT_SIGNATURE) /\ zlen raw = cv_len (ws_curve w)
            \/ kt = KT_VERIFY /\ point_ok (ws_curve w) raw = true
            \/ kt = KT_MAKE_KEY_PAIR
  end
  \/ (kt = KT_EXTRACT \/ kt = KT_EXPAND) /\ 0 < zlen raw <= MAX_KEY
  \/ (kt = KT_ENCRYPT \/ kt = KT_DECRYPT) /\ zlen raw = cs_key (table S).
(** The output buffer of the public key of a key pair is no larger than the two coordinates. *)
Definition sane (S : suite) (a : hcall) : Prop :=
  match a with
  | HImport _ _ k => k <> None
  | HMkPair _ _ _ (Some n) _ => match S with SW w => n <= 2 * cv_len (ws_curve w) | SX _ => True end
  | _ => True
  end.

(** ** Two parties *)
(** The libraries of two devices implement the same, correct primitives: Diffie-Hellman gives one
    secret whichever root stands for an x-coordinate, and opening undoes sealing. *)
Record alike (A B : libs) : Prop := {
  al_x : forall s t, @x_smult A (snd (@x_keygen B t)) (prepare (fst (@x_keygen A s)))
                     = @x_smult B (snd (@x_keygen A s)) (prepare (fst (@x_keygen B t)));
  al_ecdh : forall c a b y z, on_curve c (fst (@x_public B c b)) y = true -> on_curve c (fst (@x_public A c a)) z = true ->
            @x_ecdh A c a (fst (@x_public B c b)) y = @x_ecdh B c b (fst (@x_public A c a)) z;
  al_aead : forall f t k iv ad p, @x_open B f t k iv ad (@x_seal A f t k iv ad p) = Some p
}.
(** A key pair for signatures: what the private key signs, the public key accepts. *)
Definition key_pair (A B : libs) (S : suite) (sk pk : bytes) : Prop :=
  match S with
  | SX _ => forall m, @x_ed_ok B (@x_ed_sign A sk m) pk m = true
  | SW w => forall l m, @x_ecdsa_ok B (ws_curve w) pk (@x_hash B (ws_hash w) m)
                          (@x_ecdsa A l (ws_curve w) sk (@x_hash A (ws_hash w) m)) = true
  end.
(** In the history [h] a key pair was made, with room for exactly one coordinate as public key. *)
Definition made_pair (S : suite) (h : list (hcall * hout)) (sk pk : bytes) : Prop :=
  exists kid np, In (HMkPair kid (Some np) true (Some (cs_ecc (table S))) true, HO OK None sk pk) h.
