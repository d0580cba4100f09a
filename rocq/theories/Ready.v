(** Two parties that are able and willing to complete a handshake: what their applications,
    crypto libraries and configurations have to provide.

    Specification only: no code of /repo is modelled here. *)
From Verif Require Import Monad Api Common Msg1 History Spec Rfc Uses Conform Received Sessions
  Safety.

(** *** Sizes *)
(** The primitives give the lengths the cipher suite [s] announces. *)
Definition sized (p : primitives) (s : csuite) : Prop :=
  (forall x, zlen (p_hash p (cs_hash s) x) = cs_hash s) /\
  (forall salt ikm, zlen (p_extract p salt ikm) = cs_hash s) /\
  (forall prk i n, 0 < n -> zlen (p_expand p prk i n) = n) /\
  (forall x, zlen (p_pub p x) = cs_ecc s) /\
  (forall x y, zlen (p_dh p x y) = cs_ecc s) /\
  (forall k n a x, zlen (p_enc p k n a x) = zlen x + cs_tag s).
(** A cipher suite of reasonable size; its IV is no longer than its key, and HKDF can give its
    keys and MACs (RFC 5869: at most 255 hash lengths). *)
Definition modest (s : csuite) : Prop :=
  0 < cs_hash s <= 2 ^ 12 /\ 0 < cs_mac s <= 2 ^ 12 /\ 0 < cs_key s <= 2 ^ 12 /\
  0 < cs_iv s <= cs_key s /\ 0 < cs_ecc s <= 2 ^ 12 /\ 0 < cs_sign s <= 2 ^ 12 /\
  0 <= cs_tag s <= 2 ^ 12 /\ cs_mac s <= 255 * cs_hash s /\ cs_key s <= 255 * cs_hash s.
(** Bytes of EAD: label and header take at most six. *)
Definition ead_weight (l : list token) : Z := zsum (map (fun k => 6 + zs_len (tk_val k)) l).

(** *** Credentials *)
Definition label_of (b : cred_body) : Z :=
  match b with
  | CKid _ _ _ _ _ => COSE_KID | CChain _ => COSE_CHAIN | CHash _ _ _ _ _ => COSE_HASH
  | CAny _ _ _ _ _ => COSE_ANY | CNone => 0
  end.
Section Willing.
Context {E : env}.
(** Credentials the library can put into its own messages and MACs: key identifiers within
    their arrays, algorithm numbers of at most 16 bits. *)
Definition usable (cr : creds) : Prop :=
  cr_label cr = label_of (cr_body cr) /\ (exists i, travels cr i) /\
  match cr_body cr with
  | CKid _ raw e _ kb => e = ENC_BSTR ->
      if raw then zlen kb <= cf_max_kid + 1 /\ kb <> cbor (Bstr [])
      else zlen (cbor (Bstr kb)) <= cf_max_kid
  | CHash _ _ e a _ => e = ENC_INT -> -65536 <= a <= 65535
  | _ => True
  end.
(** Identifiers a receiver has room for. *)
Definition admits (i : item) : Prop :=
  (forall b, i = Bstr b -> zlen b <= cf_max_kid + 1) /\
  (forall l, i = idcred_item (X5chain l) -> zlen l <= cf_max_certs) /\
  (forall a fp, i = idcred_item (X5tText a fp) -> zlen a <= cf_max_alg + 1).

(** *** The application and the crypto library of one party *)
(** The party owns the credentials [me] with the private key [sk] and the public key [pk]; it
    knows the peer's credentials [peer] and public key [pkp].  Its crypto library computes the
    primitives [p], and signatures that are [valid]; nothing it asks for is refused.  It sends
    at most [room] bytes of EAD with a message. *)
Record willing (p : primitives) (valid : bytes -> bytes -> bytes -> Prop) (s : csuite)
    (me : creds) (sk pk : bytes) (peer : creds) (pkp : bytes) (room : Z) : Prop := Wl {
  wl_heap : cf_stack = None /\ 0 <= cf_sizeof_mac;
  wl_alloc : forall t b n, n <= cf_sizeof_mac + 2 ^ 20 -> o_alloc t b n = true;
  wl_import : forall f t kt key, exists kid, o_import f t kt key = (OK, kid) /\ kid <> cr_priv me;
  wl_mkpair : forall f t kid a b, key_of kid t = Some (KT_MAKE_KEY_PAIR, []) ->
    cs_ecc s <= a -> cs_ecc s <= b ->
    exists priv, o_mkpair f t kid a b = (OK, priv, p_pub p priv) /\ zlen priv = cs_ecc s;
  wl_agree : forall f t kid x y n, kid <> cr_priv me -> key_of kid t = Some (KT_KEY_AGREEMENT, x) ->
    cs_ecc s <= n -> o_agree f t kid (p_pub p y) n = (OK, p_dh p x (p_pub p y));
  wl_agree_own : forall f t y n, cs_ecc s <= n ->
    o_agree f t (cr_priv me) (p_pub p y) n = (OK, p_dh p sk (p_pub p y));
  wl_sign : forall f t x n, cs_sign s <= n -> exists sig, o_sign f t (cr_priv me) x n = (OK, sig) /\
    0 < zlen sig <= cs_sign s /\ valid pk x sig;
  wl_verify : forall f t kid pub x sig, key_of kid t = Some (KT_VERIFY, pub) -> valid pub x sig ->
    o_verify f t kid x sig = OK;
  wl_extract : forall f t kid ikm salt n, key_of kid t = Some (KT_EXTRACT, ikm) -> cs_hash s <= n ->
    o_extract f t kid salt n = (OK, p_extract p salt ikm);
  wl_expand : forall f t kid prk i n, key_of kid t = Some (KT_EXPAND, prk) ->
    0 < n <= 255 * cs_hash s -> o_expand f t kid i n = (OK, p_expand p prk i n);
  wl_encrypt : forall f t kid key iv a x n, key_of kid t = Some (KT_ENCRYPT, key) ->
    zlen x + cs_tag s <= n -> o_encrypt f t kid iv a x n = (OK, p_enc p key iv a x);
  wl_decrypt : forall f t kid key iv a y x n, key_of kid t = Some (KT_DECRYPT, key) ->
    p_dec p key iv a y = Some x -> zlen x <= n -> o_decrypt f t kid iv a y n = (OK, x);
  wl_hash : forall f t x, o_hash f t x (cs_hash s) = (OK, p_hash p (cs_hash s) x);
  wl_fetch : forall f t, o_fetch f t = (OK, me);
  wl_cverify : forall f t cr0 i, travels peer i -> travels cr0 i ->
    exists cr', o_cverify f t cr0 = (OK, cr', pkp) /\ usable cr' /\
      id_bytes cr' = id_bytes peer /\ cred_bytes_of cr' = cred_bytes_of peer;
  wl_pub : 0 < zlen pkp;
  wl_compose : forall f t m n, 0 <= n -> exists l, o_compose f t m n = (OK, l) /\ zlen l <= n /\
    Forall tok_fits l /\ Forall (fun k => -65536 <= tk_label k <= 65535) l /\ ead_weight l <= room;
  wl_process : forall f t m l, o_process f t m l = OK }.

(** *** Configuration of one party *)
(** Initialised, configured and given callbacks by a careful application (see C13); the last of
    its cipher suites is [s]; its connection identifier is not huge. *)
Definition prepared (w : world) (s : csuite) : Prop :=
  let c := w_ctx w in
  careful_world w /\ configured c /\ bound c /\ limits /\ abides /\
  1 <= c_csuite_len c /\ my_suite c = s /\
  Forall int32 (c_methods c) /\ Forall (fun x => int32 (cs_value x)) (c_csuites c) /\
  (forall b, cid_rfc (c_cid c) = CBytes b -> zlen b <= 2 ^ 12).
(** A connection identifier a receiver has room for. *)
Definition holds_cid (i : cid) : Prop := forall b, i = CBytes b -> zlen b <= cf_max_cid + 1.
(** What a party contributes to the messages. *)
Definition burden (me : creds) (room : Z) : Z := zlen (id_bytes me) + zlen (cred_bytes_of me) + room.
End Willing.

(** *** Two parties that fit together *)
(** The responder supports what the initiator proposes, each has room for the identifiers of
    the other, and PLAINTEXT_2 is no longer than a key stream can be. *)
Definition compatible (EI ER : env) (wi wr : world) (s : csuite) (me_i me_r : creds)
    (room_i room_r : Z) : Prop :=
  let ci := w_ctx wi in let cr := w_ctx wr in
  @prepared EI wi s /\ @prepared ER wr s /\ modest s /\
  c_csuite_len ci <= 3 /\ c_csuite_len ci <= @cf_max_suites ER /\
  0 <= my_method ci <= 3 /\
  (exists i, 0 <= i < c_method_len cr /\ nth (Z.to_nat i) (c_methods cr) 0 = my_method ci) /\
  @holds_cid ER (cid_rfc (c_cid ci)) /\ @holds_cid EI (cid_rfc (c_cid cr)) /\
  @cf_max_ead EI <= @cf_max_ead ER /\
  @usable EI me_i /\ (forall i, travels me_i i -> @admits ER i) /\
  @usable ER me_r /\ (forall i, travels me_r i -> @admits EI i) /\
  burden me_i room_i <= 2 ^ 15 /\ burden me_r room_r <= 2 ^ 15 /\
  zlen (cbor (cid_item (cid_rfc (c_cid cr)))) + zlen (id_bytes me_r) + room_r +
    Z.max (cs_sign s) (cs_mac s) + 3 <= 255 * cs_hash s.
(** Both applications are willing, their crypto libraries compute the same correct primitives
    and check each other's signatures, and each knows the other's credentials. *)
Definition cooperative (EI ER : env) (wi wr : world) (s : csuite) (me_i me_r : creds) : Prop :=
  exists p valid sk_i pk_i sk_r pk_r room_i room_r,
    correct p /\ sized p s /\
    @willing EI p valid s me_i sk_i pk_i me_r pk_r room_i /\
    @willing ER p valid s me_r sk_r pk_r me_i pk_i room_r /\
    (initiator_static (my_method (w_ctx wi)) = true -> pk_i = p_pub p sk_i) /\
    (responder_static (my_method (w_ctx wi)) = true -> pk_r = p_pub p sk_r) /\
    compatible EI ER wi wr s me_i me_r room_i room_r.
(** The six calls of a handshake, with buffers of [n1], [n2] and [n3] bytes. *)
Definition handshake (EI ER : env) (wi wr : world) (n1 n2 n3 : Z) (wi' wr' : world) : Prop :=
  exists m1 m2 m3 wi1 wr1 wr2 wi2,
    @do_api EI (AM1Compose true n1) wi = Ret (OK, OBytes m1) wi1 /\
    @do_api ER (AM1Process true m1) wr = Ret (OK, ONone) wr1 /\
    @do_api ER (AM2Compose true n2) wr1 = Ret (OK, OBytes m2) wr2 /\
    @do_api EI (AM2Process true m2) wi1 = Ret (OK, ONone) wi2 /\
    @do_api EI (AM3Compose true n3) wi2 = Ret (OK, OBytes m3) wi' /\
    @do_api ER (AM3Process true m3) wr2 = Ret (OK, ONone) wr'.
(** Both parties have completed the exchange and hold the same transcript hash TH_4 and the
    same PRK_4e3m, from which every exported key is derived. *)
Definition established (wi wr : world) : Prop :=
  let ci := w_ctx wi in let cr := w_ctx wr in
  c_status ci = SM_COMPLETED /\ c_status cr = SM_COMPLETED /\
  c_th_state ci = TH_4 /\ c_th_state cr = TH_4 /\ th_of ci = th_of cr /\
  c_prk_state ci = PRK_4E3M /\ c_prk_state cr = PRK_4E3M /\ prk_of ci = prk_of cr.
