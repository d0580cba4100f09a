(** A party whose key and crypto callbacks are those of a ready-made cipher suite.

    Specification only: no code of /repo is modelled here. *)
From Verif Require Import Bytes Values Monad Psa SuiteX SuiteW SuiteCalls SuiteSpec Msg1 Msg2 Msg3 History Spec Rfc Uses Conform Sessions.

(** A handle of the protocol is the four bytes of a PSA key identifier. *)
Definition key_id (id : Z) : bytes := le4 id.
Definition id_ok (id : Z) : Prop := 0 <= id < 2 ^ 32.
(** What the suite leaves in the handle of an import. *)
Definition kid_after (o : hout) : bytes := key_id (match ho_kid o with Some i => i | None => 0 end).
Definition says {L : libs} (S : suite) (s : xst) (a : hcall) (o : hout) : Prop := exists s', hrun S a s = XRet o s'.
(** Calls that destroy no key the library holds at the end of the trace [t]. *)
Definition gentle (x : list (hcall * hout)) (t : list event) : Prop :=
  forall id o, In (HDestroy (Some id), o) x -> ho_ret o = OK -> key_of (key_id id) t = None.
Definition key_event (ev : event) : bool := match ev with EvImport _ _ _ _ | EvDestroy _ _ => true | _ => false end.

(** [E] is the environment of a party using suite [S] over the libraries [L].  After the events [t] of its context
    the suite has served the calls [h t] and is in the state [st t]; the device may have served other calls of the suite
    as well.  [mine] are the long-term keys of the party, in the key store before the session: identifier, purpose and
    bytes.  The application destroys neither them nor the keys of the library. *)
Record linked (E : env) (L : libs) (S : suite) (mine : Z -> option (Z * bytes))
    (h : list event -> list (hcall * hout)) (st : list event -> xst) : Prop := {
  lk_past : forall t, reached S (h t) (st t);
  lk_import : forall f t kt raw, exists o x, says S (st t) (HImport kt raw (Some 0)) o
    /\ @o_import E f t kt raw = (ho_ret o, kid_after o)
    /\ (let t' := EvImport kt raw (ho_ret o) (kid_after o) :: t in
        h t' = h t ++ (HImport kt raw (Some 0), o) :: x /\ gentle x t');
  lk_destroy : forall f t id, id_ok id -> exists o x, says S (st t) (HDestroy (Some id)) o
    /\ @o_destroy E f t (key_id id) = ho_ret o
    /\ (let t' := EvDestroy (key_id id) (ho_ret o) :: t in h t' = h t ++ (HDestroy (Some id), o) :: x /\ gentle x t');
  lk_other : forall ev t, key_event ev = false -> exists x, h (ev :: t) = h t ++ x /\ gentle x (ev :: t);
  lk_mkpair : forall f t id np, id_ok id -> exists o,
    says S (st t) (HMkPair (Some id) (Some np) true (Some (cs_ecc (table S))) true) o
    /\ @o_mkpair E f t (key_id id) np (cs_ecc (table S)) = (ho_ret o, ho_1 o, ho_2 o);
  lk_agree : forall f t id p n, id_ok id -> exists o, says S (st t) (HAgree (Some id) (Some p) (Some n) true) o
    /\ @o_agree E f t (key_id id) p n = (ho_ret o, ho_1 o);
  lk_sign : forall f t id i n, id_ok id -> exists o, says S (st t) (HSign (Some id) (Some i) (Some n) true) o
    /\ @o_sign E f t (key_id id) i n = (ho_ret o, ho_1 o);
  lk_verify : forall f t id i sg, id_ok id -> exists o, says S (st t) (HVerify (Some id) (Some i) (Some sg)) o
    /\ @o_verify E f t (key_id id) i sg = ho_ret o;
  lk_extract : forall f t id sa n, id_ok id -> exists o, says S (st t) (HExtract (Some id) (Some sa) (Some n) true) o
    /\ @o_extract E f t (key_id id) sa n = (ho_ret o, ho_1 o);
  lk_expand : forall f t id i n, id_ok id -> exists o, says S (st t) (HExpand (Some id) (Some i) (Some n)) o
    /\ @o_expand E f t (key_id id) i n = (ho_ret o, ho_1 o);
  lk_encrypt : forall f t id iv ad p n, id_ok id -> exists o,
    says S (st t) (HEncrypt (Some id) (Some iv) (Some ad) p (Some n) true) o
    /\ @o_encrypt E f t (key_id id) iv ad p n = (ho_ret o, ho_1 o);
  lk_decrypt : forall f t id iv ad c n, id_ok id -> exists o,
    says S (st t) (HDecrypt (Some id) (Some iv) (Some ad) (Some c) n true) o
    /\ @o_decrypt E f t (key_id id) iv ad c n = (ho_ret o, ho_1 o);
  lk_hash : forall f t i n, exists o, says S (st t) (HHash (Some i) (Some n) true) o
    /\ @o_hash E f t i n = (ho_ret o, ho_1 o);
  lk_mine : forall t id kt raw, mine id = Some (kt, raw) -> (forall r, ~ In (EvDestroy (key_id id) r) t) ->
    kept S kt /\ kt <> KT_MAKE_KEY_PAIR /\ imported (h t) id kt raw;
  lk_fetch : forall f t cr, @o_fetch E f t = (OK, cr) -> exists id kt raw, mine id = Some (kt, raw) /\ cr_priv cr = key_id id
}.
(** The long-term private key behind a handle. *)
Definition keys_of (mine : Z -> option (Z * bytes)) (kid : bytes) : bytes :=
  match mine (unle4 kid) with Some (_, raw) => raw | None => [] end.

(** The primitives [p] are what the libraries compute for the algorithms of the suite. *)
Record implements (L : libs) (S : suite) (p : primitives) : Prop := {
  im_hash : forall x, p_hash p (hash_size (hash_of S)) x = x_hash (hash_of S) x;
  im_extract : forall salt ikm, p_extract p salt ikm = x_extract (hash_of S) salt ikm;
  im_expand : forall prk i n, p_expand p prk i n = x_expand (hash_of S) prk i n;
  im_enc : forall k iv ad x, p_enc p k iv ad x = x_seal (aead_of S) (cs_tag (table S)) k iv ad x;
  im_dec : forall k iv ad c, p_dec p k iv ad c = x_open (aead_of S) (cs_tag (table S)) k iv ad c;
  im_pub : match S with
           | SX _ => forall seed, p_pub p (fst (x_keygen seed)) = snd (x_keygen seed)
           | SW w => forall a, p_pub p a = be (Z.to_nat (cv_len (ws_curve w))) (fst (x_public (ws_curve w) a))
           end;
  im_dh : match S with
          | SX _ => forall a pk, zlen a = 32 -> zlen pk = 32 -> p_dh p a pk = x_smult pk (prepare a)
          | SW w => forall a pk y, zlen pk = cv_len (ws_curve w) -> on_curve (ws_curve w) (unbe pk) y = true ->
                      p_dh p a pk = x_ecdh (ws_curve w) a (unbe pk) y
          end
}.
(** Signatures: made with the long-term key of the party over the bytes the library asked to sign; accepted only if
    they verify under the key the library imported. *)
Definition signs (L : libs) (S : suite) (mine : Z -> option (Z * bytes)) (t : list event) : Prop :=
  (forall kid i sig, In (EvSign kid i OK sig) t -> exists id kt sk, mine id = Some (kt, sk) /\ kid = key_id id /\
     match S with SX _ => sig = x_ed_sign sk i | SW w => exists l, sig = x_ecdsa l (ws_curve w) sk (x_hash (ws_hash w) i) end) /\
  (forall kid i sig pk, with_key t (EvVerify kid i sig OK) kid KT_VERIFY pk ->
     match S with SX _ => x_ed_ok sig pk i = true | SW w => x_ecdsa_ok (ws_curve w) pk (x_hash (ws_hash w) i) sig = true end).
(** The libraries of one device. *)
Definition device (L : libs) : Prop := fresh_ids L /\ sized L.

(** One context from its initialisation to the end of the handshake, nothing else in between. *)
Definition from_init {E : env} (c : ctx) : Prop :=
  exists c0 l rs, Forall (fun a => is_config a = true) l /\ runs (AInit :: l) (Wd c0 []) = Ret rs (Wd c []).
Definition initiator_run {E : env} (a : trip) (m1 m2 m3 : bytes) : Prop :=
  from_init (s0 a) /\ exists nn1 n1 nn2 nn3 n3,
    message_1_compose nn1 n1 (Wd (s0 a) []) = Ret (OK, m1) (Wd (s1 a) (ev1 a)) /\
    message_2_process nn2 m2 (Wd (s1 a) (ev1 a)) = Ret OK (Wd (s2 a) (ev2 a ++ ev1 a)) /\
    message_3_compose nn3 n3 (Wd (s2 a) (ev2 a ++ ev1 a)) = Ret (OK, m3) (Wd (s3 a) (ev3 a ++ ev2 a ++ ev1 a)).
Definition responder_run {E : env} (b : trip) (m1 m2 m3 : bytes) : Prop :=
  from_init (s0 b) /\ exists nn1 nn2 n2 nn3,
    message_1_process nn1 m1 (Wd (s0 b) []) = Ret OK (Wd (s1 b) (ev1 b)) /\
    message_2_compose nn2 n2 (Wd (s1 b) (ev1 b)) = Ret (OK, m2) (Wd (s2 b) (ev2 b ++ ev1 b)) /\
    message_3_process nn3 m3 (Wd (s2 b) (ev2 b ++ ev1 b)) = Ret OK (Wd (s3 b) (ev3 b ++ ev2 b ++ ev1 b)).
(** What the context answered afterwards. *)
Definition afterwards {E : env} (a : trip) (rs : list result) (e : list event) : Prop :=
  exists l c', Forall (fun x => session_call x = true) l /\
    runs l (Wd (s3 a) (ev3 a ++ ev2 a ++ ev1 a)) = Ret rs (Wd c' (e ++ ev3 a ++ ev2 a ++ ev1 a)).

(** Two devices, each with libraries that implement the same correct primitives, use the ready-made suite [S] and
    complete the handshake; each accepts the credential the other one uses. *)
Definition uses (E : env) (S : suite) (p : primitives) (mine : Z -> option (Z * bytes)) : Prop :=
  exists L h st, device L /\ implements L S p /\ linked E L S mine h st.
Definition deployed (EI ER : env) (S : suite) (p : primitives) (mine_i mine_r : Z -> option (Z * bytes)) (a b : trip)
    (m1 m2 m3 : bytes) : Prop :=
  shipped S /\ correct p /\ uses EI S p mine_i /\ uses ER S p mine_r /\
  my_suite (s0 a) = table S /\ my_suite (s0 b) = table S /\
  @initiator_run EI a m1 m2 m3 /\ @responder_run ER b m1 m2 m3 /\
  is_message m1 /\ is_message m2 /\ is_message m3 /\ typed (s0 a) (ev1 a) /\
  honest_credential p (keys_of mine_r) (responder_static (my_method (s0 a))) (ev2 b) (ev2 a) /\
  honest_credential p (keys_of mine_i) (initiator_static (my_method (s0 a))) (ev3 a) (ev3 b).
