(** Symbolic execution of calls that cannot fail: rules for a willing application and crypto
    library. *)
From Verif Require Import Monad Api Common Msg1 Msg2 Msg3 Rfc Uses Conform Received Sessions Safety
  Facts Logic Sym CborProofs RfcProofs CodecProofs Steps Steps2 Steps3 Ready.

(** The faults that are still to be excluded here; the others are excluded for every careful
    program. *)
Definition HU (u : ub) : Prop := u <> UbKidWrite /\ u <> UbEadRead /\ u <> UbMsg3Write.

Lemma sat_both : forall U A (m : M A) w (P Q : A -> world -> Prop),
  sat U m w P -> sat Any m w Q -> sat U m w (fun a w' => P a w' /\ Q a w').
Proof. intros U A m w P Q H1 H2. unfold sat in *. destruct (m w); auto. Qed.

(** What the key schedule reads of a context. *)
Record vw := VW {
  v_s : csuite; v_st : Z; v_m : Z; v_r : Z; v_meth : Z; v_cid : conn_id; v_ead : ead_fns;
  v_ts : Z; v_tl : Z; v_th : bytes; v_ps : Z; v_pl : Z; v_prk : bytes;
  v_priv : bytes; v_publ : Z; v_pub : bytes; v_peer : bytes; v_sec : bytes;
  v_pcid : conn_id; v_tok : list token }.
Definition view (c : ctx) : vw :=
  VW (the_suite c) (c_status c) (c_message c) (c_role c) (c_chosen_method c) (c_cid c) (c_ead c)
     (c_th_state c) (c_th_len c) (th_of c) (c_prk_state c) (c_prk_len c) (prk_of c)
     (priv_of c) (c_dh_pub_len c) (pub_of c) (peer_of c) (secret_of c) (c_peer_cid c) (c_tokens c).

Section Rules.
Context {E : env}.
Variables (p : primitives) (valid : bytes -> bytes -> bytes -> Prop) (s : csuite) (me : creds)
  (sk pk : bytes) (peer : creds) (pkp : bytes) (room : Z).
Hypothesis HW : willing p valid s me sk pk peer pkp room.

Lemma hy_free : forall b w (Q : unit -> world -> Prop),
  Q tt (Wd (w_ctx w) (EvFree b :: w_tr w)) -> sat HU (free b) w Q.
Proof.
  intros b w Q H. unfold free. apply sat_bind, sat_trace, sat_bind, sat_check.
  - intros _. repeat split; discriminate.
  - intros _. apply sat_emit. exact H.
Qed.
Lemma hy_alloc : forall b n w (Q : bool -> world -> Prop), n <= cf_sizeof_mac + 2 ^ 20 ->
  Q true (Wd (w_ctx w) (EvAlloc b n true :: w_tr w)) -> sat HU (alloc b n) w Q.
Proof.
  intros b n w Q Hn H. unfold alloc. destruct (wl_heap _ _ _ _ _ _ _ _ _ HW) as [-> _].
  apply sat_bind, sat_trace. rewrite (wl_alloc _ _ _ _ _ _ _ _ _ HW) by assumption. cbv zeta.
  apply sat_bind, sat_emit, sat_ret, H.
Qed.
Ltac st1 := lazymatch goal with
  | |- sat _ (bind _ _) _ _ => apply sat_bind
  | |- sat _ getc _ _ => apply sat_getc
  | |- sat _ trace _ _ => apply sat_trace
  | |- sat _ (emit _) _ _ => apply sat_emit
  | |- sat _ (need _ _) _ _ => apply sat_need; [intros _; repeat split; discriminate|intros f Hf]
  | |- sat _ (check _ _) _ _ => apply sat_check; [intros _; repeat split; discriminate|intros ?]
  end.
Ltac pre := repeat st1.
Ltac post H := cbv zeta; repeat st1; apply sat_ret; apply H.
Lemma hy_import : forall kt key w (Q : Z * bytes -> world -> Prop),
  (forall kid, kid <> cr_priv me -> Q (OK, kid) (Wd (w_ctx w) (EvImport kt key OK kid :: w_tr w))) ->
  sat HU (call_import kt key) w Q.
Proof.
  intros kt key w Q H. unfold call_import. pre.
  destruct (wl_import _ _ _ _ _ _ _ _ _ HW f (w_tr w) kt key) as (kid & -> & K). post H; assumption.
Qed.
Lemma hy_destroy : forall kid w (Q : Z -> world -> Prop),
  (forall r, Q r (Wd (w_ctx w) (EvDestroy kid r :: w_tr w))) -> sat HU (call_destroy kid) w Q.
Proof. intros kid w Q H. unfold call_destroy. pre. post H. Qed.
Lemma hy_mkpair : forall kid a b w (Q : Z * bytes * bytes -> world -> Prop),
  key_of kid (w_tr w) = Some (KT_MAKE_KEY_PAIR, []) -> cs_ecc s <= a -> cs_ecc s <= b ->
  (forall priv, zlen priv = cs_ecc s ->
     Q (OK, priv, p_pub p priv) (Wd (w_ctx w) (EvMkPair kid OK priv (p_pub p priv) :: w_tr w))) ->
  sat HU (call_mkpair kid a b) w Q.
Proof.
  intros kid a b w Q H1 H2 H3 H. unfold call_mkpair, out_ok. pre.
  destruct (wl_mkpair _ _ _ _ _ _ _ _ _ HW f (w_tr w) kid a b) as (x & -> & K); try assumption. post H; assumption.
Qed.
Lemma hy_agree : forall kid x y n w (Q : Z * bytes -> world -> Prop),
  kid <> cr_priv me -> key_of kid (w_tr w) = Some (KT_KEY_AGREEMENT, x) -> cs_ecc s <= n ->
  Q (OK, p_dh p x (p_pub p y)) (Wd (w_ctx w) (EvAgree kid (p_pub p y) OK (p_dh p x (p_pub p y)) :: w_tr w)) ->
  sat HU (call_agree kid (p_pub p y) n) w Q.
Proof.
  intros kid x y n w Q H1 H2 H3 H. unfold call_agree, out_ok. pre.
  rewrite (wl_agree _ _ _ _ _ _ _ _ _ HW f _ _ x) by assumption. post H.
Qed.
Lemma hy_agree_own : forall y n w (Q : Z * bytes -> world -> Prop), cs_ecc s <= n ->
  Q (OK, p_dh p sk (p_pub p y)) (Wd (w_ctx w) (EvAgree (cr_priv me) (p_pub p y) OK (p_dh p sk (p_pub p y)) :: w_tr w)) ->
  sat HU (call_agree (cr_priv me) (p_pub p y) n) w Q.
Proof.
  intros y n w Q H3 H. unfold call_agree, out_ok. pre.
  rewrite (wl_agree_own _ _ _ _ _ _ _ _ _ HW) by assumption. post H.
Qed.
Lemma hy_sign : forall x n w (Q : Z * bytes -> world -> Prop), cs_sign s <= n ->
  (forall sig, 0 < zlen sig <= cs_sign s -> valid pk x sig ->
     Q (OK, sig) (Wd (w_ctx w) (EvSign (cr_priv me) x OK sig :: w_tr w))) ->
  sat HU (call_sign (cr_priv me) x n) w Q.
Proof.
  intros x n w Q Hn H. unfold call_sign, out_ok. pre.
  destruct (wl_sign _ _ _ _ _ _ _ _ _ HW f (w_tr w) x n) as (sig & -> & L & V); [assumption|]. post H; assumption.
Qed.
Lemma hy_verify : forall kid pub x sig w (Q : Z -> world -> Prop),
  key_of kid (w_tr w) = Some (KT_VERIFY, pub) -> valid pub x sig ->
  Q OK (Wd (w_ctx w) (EvVerify kid x sig OK :: w_tr w)) -> sat HU (call_verify kid x sig) w Q.
Proof.
  intros kid pub x sig w Q H1 H2 H. unfold call_verify. pre.
  rewrite (wl_verify _ _ _ _ _ _ _ _ _ HW f _ _ pub) by assumption. post H.
Qed.
Lemma hy_extract : forall kid ikm salt n w (Q : Z * bytes -> world -> Prop),
  key_of kid (w_tr w) = Some (KT_EXTRACT, ikm) -> cs_hash s <= n ->
  Q (OK, p_extract p salt ikm) (Wd (w_ctx w) (EvExtract kid salt OK (p_extract p salt ikm) :: w_tr w)) ->
  sat HU (call_extract kid salt n) w Q.
Proof.
  intros kid ikm salt n w Q H1 H2 H. unfold call_extract, out_ok. pre.
  rewrite (wl_extract _ _ _ _ _ _ _ _ _ HW f _ _ ikm) by assumption. post H.
Qed.
Lemma hy_expand : forall kid prk i n w (Q : Z * bytes -> world -> Prop),
  key_of kid (w_tr w) = Some (KT_EXPAND, prk) -> 0 < n <= 255 * cs_hash s ->
  Q (OK, p_expand p prk i n) (Wd (w_ctx w) (EvExpand kid i n OK (p_expand p prk i n) :: w_tr w)) ->
  sat HU (call_expand kid i n) w Q.
Proof.
  intros kid prk i n w Q H1 H2 H. unfold call_expand, out_ok. pre.
  rewrite (wl_expand _ _ _ _ _ _ _ _ _ HW f _ _ prk) by assumption. post H.
Qed.
Lemma hy_encrypt : forall kid key iv a x n w (Q : Z * bytes -> world -> Prop),
  key_of kid (w_tr w) = Some (KT_ENCRYPT, key) -> zlen x + cs_tag s <= n ->
  Q (OK, p_enc p key iv a x) (Wd (w_ctx w) (EvEncrypt kid iv a x OK (p_enc p key iv a x) :: w_tr w)) ->
  sat HU (call_encrypt kid iv a x n) w Q.
Proof.
  intros kid key iv a x n w Q H1 H2 H. unfold call_encrypt, out_ok. pre.
  rewrite (wl_encrypt _ _ _ _ _ _ _ _ _ HW f _ _ key) by assumption. post H.
Qed.
Lemma hy_decrypt : forall kid key iv a y x n w (Q : Z * bytes -> world -> Prop),
  key_of kid (w_tr w) = Some (KT_DECRYPT, key) -> p_dec p key iv a y = Some x -> zlen x <= n ->
  Q (OK, x) (Wd (w_ctx w) (EvDecrypt kid iv a y OK x :: w_tr w)) ->
  sat HU (call_decrypt kid iv a y n) w Q.
Proof.
  intros kid key iv a y x n w Q H1 H2 H3 H. unfold call_decrypt, out_ok. pre.
  rewrite (wl_decrypt _ _ _ _ _ _ _ _ _ HW f _ _ key iv a y x) by assumption. post H.
Qed.
Lemma hy_hash : forall x w (Q : Z * bytes -> world -> Prop),
  Q (OK, p_hash p (cs_hash s) x) (Wd (w_ctx w) (EvHash x (cs_hash s) OK (p_hash p (cs_hash s) x) :: w_tr w)) ->
  sat HU (call_hash x (cs_hash s)) w Q.
Proof.
  intros x w Q H. unfold call_hash, out_ok. pre. rewrite (wl_hash _ _ _ _ _ _ _ _ _ HW). post H.
Qed.
Lemma hy_fetch : forall w (Q : Z * creds -> world -> Prop),
  Q (OK, me) (Wd (w_ctx w) (EvFetch OK me :: w_tr w)) -> sat HU call_fetch w Q.
Proof. intros w Q H. unfold call_fetch. pre. rewrite (wl_fetch _ _ _ _ _ _ _ _ _ HW). post H. Qed.
Lemma hy_cverify : forall cr0 i w (Q : Z * creds * bytes -> world -> Prop),
  travels peer i -> travels cr0 i ->
  (forall cr', usable cr' -> id_bytes cr' = id_bytes peer -> cred_bytes_of cr' = cred_bytes_of peer ->
    Q (OK, cr', pkp) (Wd (w_ctx w) (EvCredVerify cr0 OK cr' pkp :: w_tr w))) ->
  sat HU (call_cverify cr0) w Q.
Proof.
  intros cr0 i w Q H1 H2 H. unfold call_cverify. pre.
  destruct (wl_cverify _ _ _ _ _ _ _ _ _ HW f (w_tr w) cr0 i H1 H2) as (cr' & -> & A & B & C).
  post H; assumption.
Qed.
Lemma hy_compose : forall f m n w (Q : Z * list token -> world -> Prop), 0 <= n ->
  (forall l, zlen l <= n -> Forall tok_fits l -> Forall (fun k => -65536 <= tk_label k <= 65535) l ->
     ead_weight l <= room -> Q (OK, l) (Wd (w_ctx w) (EvEadCompose m OK l :: w_tr w))) ->
  sat HU (call_compose f m n) w Q.
Proof.
  intros f m n w Q N H. unfold call_compose. pre.
  destruct (wl_compose _ _ _ _ _ _ _ _ _ HW f (w_tr w) m n N) as (l & -> & A & B & C & D). post H; assumption.
Qed.
Lemma hy_process : forall f m l w (Q : Z -> world -> Prop),
  Q OK (Wd (w_ctx w) (EvEadProcess m l OK :: w_tr w)) -> sat HU (call_process f m l) w Q.
Proof. intros f m l w Q H. unfold call_process. pre. rewrite (wl_process _ _ _ _ _ _ _ _ _ HW). post H. Qed.
End Rules.

Section Reads.
Context {E : env}.
Lemma hu_check : forall b u w (Q : unit -> world -> Prop), HU u -> (b = true -> Q tt w) -> sat HU (check b u) w Q.
Proof. intros. apply sat_check; [now intros|assumption]. Qed.
Lemma hu_need : forall A (o : option A) u w (Q : A -> world -> Prop), HU u -> (forall a, o = Some a -> Q a w) ->
  sat HU (need o u) w Q.
Proof. intros. apply sat_need; [now intros|assumption]. Qed.
Ltac go H := unfold get_suite, get_th, get_prk, get_dh_pub, get_dh_priv, get_dh_peer, get_dh_secret, rd,
  put_th, put_prk, put_dh_pub, put_dh_priv, put_dh_peer, put_dh_secret, wr;
  repeat lazymatch goal with
  | |- sat _ (bind _ _) _ _ => apply sat_bind
  | |- sat _ getc _ _ => apply sat_getc
  | |- sat _ (check _ _) _ _ => apply hu_check; [repeat split; discriminate|intros ?]
  end;
  lazymatch goal with
  | |- sat _ (ret _) _ _ => apply sat_ret; exact H
  | |- sat _ (modify _) _ _ => apply sat_modify; exact H
  end.
Lemma hu_suite : forall w (Q : csuite -> world -> Prop), Q (the_suite (w_ctx w)) w -> sat HU get_suite w Q.
Proof. intros w Q H. go H. Qed.
Lemma hu_th : forall w (Q : bytes -> world -> Prop), Q (th_of (w_ctx w)) w -> sat HU get_th w Q.
Proof. intros w Q H. go H. Qed.
Lemma hu_prk : forall w (Q : bytes -> world -> Prop), Q (prk_of (w_ctx w)) w -> sat HU get_prk w Q.
Proof. intros w Q H. go H. Qed.
Lemma hu_pub : forall w (Q : bytes -> world -> Prop), Q (pub_of (w_ctx w)) w -> sat HU get_dh_pub w Q.
Proof. intros w Q H. go H. Qed.
Lemma hu_priv : forall w (Q : bytes -> world -> Prop), Q (priv_of (w_ctx w)) w -> sat HU get_dh_priv w Q.
Proof. intros w Q H. go H. Qed.
Lemma hu_peer : forall w (Q : bytes -> world -> Prop), Q (peer_of (w_ctx w)) w -> sat HU get_dh_peer w Q.
Proof. intros w Q H. go H. Qed.
Lemma hu_secret : forall w (Q : bytes -> world -> Prop), Q (secret_of (w_ctx w)) w -> sat HU get_dh_secret w Q.
Proof. intros w Q H. go H. Qed.
Lemma hu_put_th : forall o w (Q : unit -> world -> Prop),
  Q tt (Wd (set_th (blit (c_th (w_ctx w)) o) (w_ctx w)) (w_tr w)) -> sat HU (put_th o) w Q.
Proof. intros o w Q H. go H. Qed.
Lemma hu_put_prk : forall o w (Q : unit -> world -> Prop),
  Q tt (Wd (set_prk (blit (c_prk (w_ctx w)) o) (w_ctx w)) (w_tr w)) -> sat HU (put_prk o) w Q.
Proof. intros o w Q H. go H. Qed.
Lemma hu_put_pub : forall o w (Q : unit -> world -> Prop),
  Q tt (Wd (set_dh_pub (blit (c_dh_pub (w_ctx w)) o) (w_ctx w)) (w_tr w)) -> sat HU (put_dh_pub o) w Q.
Proof. intros o w Q H. go H. Qed.
Lemma hu_put_priv : forall o w (Q : unit -> world -> Prop),
  Q tt (Wd (set_dh_priv (blit (c_dh_priv (w_ctx w)) o) (w_ctx w)) (w_tr w)) -> sat HU (put_dh_priv o) w Q.
Proof. intros o w Q H. go H. Qed.
Lemma hu_put_peer : forall o w (Q : unit -> world -> Prop),
  Q tt (Wd (set_dh_peer (blit (c_dh_peer (w_ctx w)) o) (w_ctx w)) (w_tr w)) -> sat HU (put_dh_peer o) w Q.
Proof. intros o w Q H. go H. Qed.
Lemma hu_put_secret : forall o w (Q : unit -> world -> Prop),
  Q tt (Wd (set_dh_secret (blit (c_dh_secret (w_ctx w)) o) (w_ctx w)) (w_tr w)) -> sat HU (put_dh_secret o) w Q.
Proof. intros o w Q H. go H. Qed.
Lemma hu_rd_ptr : forall n b r w (Q : bytes -> world -> Prop), zlen b = n -> Q b w -> sat HU (rd_ptr n (Some (b ++ r))) w Q.
Proof.
  intros n b r w Q L H. unfold rd_ptr. destruct (n <=? 0) eqn:N.
  - apply sat_ret. pose proof (zlen_nonneg _ b). assert (zlen b = 0) as Z0 by lia. apply zlen_0 in Z0. now subst b.
  - apply sat_bind, hu_check; [repeat split; discriminate|]. intros _. apply sat_ret. now rewrite take_app_exact by assumption.
Qed.
End Reads.

(** ** Tactics *)
Ltac hu := solve [repeat split; discriminate].
Ltac bs := first [reflexivity | assumption | lia
  | unfold MSG_1, MSG_2, MSG_3, INITIATOR, RESPONDER, TH_1, TH_2, TH_3, PRK_INVALID, PRK_2E, PRK_3E2M, PRK_4E3M in *; lia ].
Ltac keyat := cbn [w_tr w_ctx key_of app]; rewrite ?beqb_refl, ?Z.eqb_refl; reflexivity.
Ltac hy :=
  lazymatch goal with
  | |- sat _ (bind _ _) _ _ => apply sat_bind
  | |- sat _ (let _ := _ in _) _ _ => cbv zeta
  | |- sat _ (let '(_, _) := (_, _) in _) _ _ => cbv beta iota
  | |- sat _ (ret _) _ (fun a w => sat _ _ _ _) => apply sat_ret; cbv beta iota
  | |- sat _ getc _ _ => apply sat_getc; cbn [w_ctx w_tr]
  | |- sat _ (modify _) _ _ => apply sat_modify; cbn [w_ctx w_tr]
  | |- sat _ (check _ _) _ _ => apply hu_check; [hu|intro]
  | |- sat _ (need _ _) _ _ => apply hu_need; [hu|intros ? ?]
  | |- sat _ (alloc _ _) _ _ => eapply hy_alloc; [eassumption|lia|cbn [w_ctx w_tr negb]]
  | |- sat _ (free _) _ _ => apply hy_free; cbn [w_ctx w_tr]
  | |- sat _ (frees _) _ _ => cbn [frees]
  | |- sat _ (call_import _ _) _ _ => eapply hy_import; [eassumption|intros ? ?; cbn [w_ctx w_tr]]
  | |- sat _ (call_destroy _) _ _ => eapply hy_destroy; intros; cbn [w_ctx w_tr]
  | |- sat _ (call_mkpair _ _ _) _ _ => eapply hy_mkpair; [eassumption|keyat|lia|lia|intros ? ?; cbn [w_ctx w_tr]]
  | |- sat _ (call_agree ?k _ _) _ _ =>
      first [ eapply hy_agree; [eassumption|assumption|keyat|lia|cbn [w_ctx w_tr]]
            | eapply hy_agree_own; [eassumption|lia|cbn [w_ctx w_tr]] ]
  | |- sat _ (call_extract _ _ _) _ _ => eapply hy_extract; [eassumption|keyat|lia|cbn [w_ctx w_tr]]
  | |- sat _ (call_expand _ _ _) _ _ => eapply hy_expand; [eassumption|keyat|lia|cbn [w_ctx w_tr]]
  | |- sat _ (call_encrypt _ _ _ _ _) _ _ => eapply hy_encrypt; [eassumption|keyat|lia|cbn [w_ctx w_tr]]
  | |- sat _ (call_hash _ _) _ _ => eapply hy_hash; [eassumption|cbn [w_ctx w_tr]]
  | |- sat _ call_fetch _ _ => eapply hy_fetch; [eassumption|cbn [w_ctx w_tr]]
  | |- sat _ (call_process _ _ _) _ _ => eapply hy_process; [eassumption|cbn [w_ctx w_tr]]
  | |- sat _ get_suite _ _ => apply hu_suite; cbn [w_ctx w_tr]
  | |- sat _ get_th _ _ => apply hu_th; cbn [w_ctx w_tr]
  | |- sat _ get_prk _ _ => apply hu_prk; cbn [w_ctx w_tr]
  | |- sat _ get_dh_pub _ _ => apply hu_pub; cbn [w_ctx w_tr]
  | |- sat _ get_dh_priv _ _ => apply hu_priv; cbn [w_ctx w_tr]
  | |- sat _ get_dh_peer _ _ => apply hu_peer; cbn [w_ctx w_tr]
  | |- sat _ get_dh_secret _ _ => apply hu_secret; cbn [w_ctx w_tr]
  | |- sat _ (put_th _) _ _ => apply hu_put_th; cbn [w_ctx w_tr]
  | |- sat _ (put_prk _) _ _ => apply hu_put_prk; cbn [w_ctx w_tr]
  | |- sat _ (put_dh_pub _) _ _ => apply hu_put_pub; cbn [w_ctx w_tr]
  | |- sat _ (put_dh_priv _) _ _ => apply hu_put_priv; cbn [w_ctx w_tr]
  | |- sat _ (put_dh_peer _) _ _ => apply hu_put_peer; cbn [w_ctx w_tr]
  | |- sat _ (put_dh_secret _) _ _ => apply hu_put_secret; cbn [w_ctx w_tr]
  | |- sat _ (if ?b then _ else _) _ _ =>
      first [ replace b with false by bs | replace b with true by bs ]; cbv iota
  end.

(** ** Lengths *)
Lemma fits_ok : forall n b, zlen b <= n -> fits n b = Some b.
Proof. intros. unfold fits. now replace (zlen b <=? n) with true by lia. Qed.
Lemma i32_id : forall n, 0 <= n < 2 ^ 31 -> i32 n = n.
Proof.
  intros n H. unfold i32. rewrite Z.mod_small by lia. now replace (n <? 2 ^ 31) with true by lia.
Qed.
Lemma zlen_bstr_oh : forall b, zlen b <= 65535 -> zlen (cbor (Bstr b)) = zlen b + bstr_oh (zlen b).
Proof. intros b H. pose proof (zlen_nonneg _ b). rewrite zlen_bstr, (str_size_exact 2) by lia. lia. Qed.
Lemma zlen_enc_bstr : forall b, zlen b <= 65535 -> zlen (enc_bstr b) = zlen b + bstr_oh (zlen b).
Proof. intros. rewrite enc_bstr_rfc. now apply zlen_bstr_oh. Qed.
Lemma bstr_oh_le : forall n, n <= 65535 -> 1 <= bstr_oh n <= 3.
Proof. intros n H. unfold bstr_oh. repeat match goal with |- context [if ?b then _ else _] => destruct b eqn:? end; lia. Qed.
Lemma imr_le : forall n, 1 <= int_mem_req n <= 4.
Proof. intros n. unfold int_mem_req. repeat match goal with |- context [if ?b then _ else _] => destruct b eqn:? end; lia. Qed.
Lemma info_len : forall label cx n, -65536 <= label <= 65535 -> zlen cx <= 65535 -> 0 <= n <= 65535 ->
  enc_info label cx (u32 n) = info label cx n /\
  zlen (info label cx n) = int_mem_req label + (zlen cx + bstr_oh (zlen cx)) + int_mem_req (i32 n).
Proof.
  intros label cx n H1 H2 H3. rewrite u32_id, i32_id by lia. split; [apply enc_info_rfc|].
  unfold info, cbor_seq. cbn [flat_map]. rewrite app_nil_r, !zlen_app, zlen_bstr_oh by assumption.
  rewrite !int_size_exact by lia. lia.
Qed.
