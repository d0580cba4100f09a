(** MAC contexts, MACs, signatures, plaintexts and ciphertexts on the successful path. *)
From Verif Require Import Monad Common Msg1 Msg2 Msg3 Rfc Uses Conform Logic Sym CborProofs
  RfcProofs CodecProofs Steps.

Section Steps2.
Context {E : env}.

(** ** Credentials *)
Definition labelled (cr : creds) : Prop :=
  match cr_body cr with
  | CKid _ _ _ _ _ => (cr_label cr =? COSE_KID) = true
  | CChain _ => (cr_label cr =? COSE_CHAIN) = true
  | CHash _ _ _ _ _ => (cr_label cr =? COSE_HASH) = true
  | CAny _ _ _ _ _ => (cr_label cr =? COSE_ANY) = true
  | CNone => False
  end.
Ltac body cr :=
  match goal with H : _ (cr_body cr) = Some _ |- _ =>
    destruct (cr_body cr) eqn:?; try discriminate H; injection H; intros; subst end.
Lemma ok_id_cred_len : forall cr w (Q : Z * Z -> world -> Prop),
  (forall x, (fst x = OK -> labelled cr) -> Q x w) -> sat Any (comp_id_cred_len cr) w Q.
Proof.
  intros cr w Q H. unfold comp_id_cred_len.
  repeat match goal with
  | |- sat _ (bind _ _) _ _ => apply sat_bind
  | |- sat _ (need _ _) _ _ => apply sy_need; intros [[[[? ?] ?] ?] ?] ?
  | |- sat _ (need _ _) _ _ => apply sy_need; intros ? ?
  | |- sat _ (if ?b then _ else _) _ _ => destruct b eqn:?
  | |- sat _ (ret _) _ _ => apply sat_ret; apply H; intro; try discriminate
  end; unfold labelled; body cr; assumption.
Qed.
Lemma ok_cred_len : forall cr w (Q : Z * Z -> world -> Prop),
  (forall x, Q x w) -> sat Any (comp_cred_len cr) w Q.
Proof.
  intros cr w Q H. unfold comp_cred_len.
  repeat match goal with
  | |- sat _ (bind _ _) _ _ => apply sat_bind
  | |- sat _ (need _ _) _ _ => apply sy_need; intros [[[[? ?] ?] ?] ?] ?
  | |- sat _ (need _ _) _ _ => apply sy_need; intros ? ?
  | |- sat _ (if ?b then _ else _) _ _ => destruct b
  | |- sat _ (ret _) _ _ => apply sat_ret; apply H
  end.
Qed.
Lemma ok_mac_context_length : forall cr w (Q : Z * Z -> world -> Prop),
  (forall x, Q x w) -> sat Any (comp_mac_context_length cr) w Q.
Proof.
  intros cr w Q H. unfold comp_mac_context_length.
  repeat match goal with
  | |- sat _ (bind _ _) _ _ => apply sat_bind
  | |- sat _ getc _ _ => apply sat_getc
  | |- sat _ (comp_id_cred_len _) _ _ => apply ok_id_cred_len; intros [? ?] ?
  | |- sat _ (comp_cred_len _) _ _ => apply ok_cred_len; intros [? ?]
  | |- sat _ (if ?b then _ else _) _ _ => destruct b
  | |- sat _ (match ?x with _ => _ end) _ _ => destruct x
  | |- sat _ (ret _) _ _ => apply sat_ret; apply H
  end.
Qed.
Lemma ok_id_cred_of : forall cr w, sat Any (id_cred_of cr) w (fun x w' => w' = w /\
  match x with
  | inl e => e <> OK
  | inr None => (cr_label cr =? COSE_ANY) = true
  | inr (Some i) => cbor (idcred_item (idcred_of i)) = id_bytes cr
  end).
Proof.
  intros cr w. unfold id_cred_of, id_bytes.
  repeat match goal with
  | |- sat _ (bind _ _) _ _ => apply sat_bind
  | |- sat _ (need _ _) _ _ => apply sy_need; intros [[[[? ?] ?] ?] ?] ?
  | |- sat _ (need _ _) _ _ => apply sy_need; intros ? ?
  | |- sat _ (if ?b then _ else _) _ _ => destruct b eqn:?
  | |- sat _ (ret _) _ _ => apply sat_ret; split; [reflexivity|]
  end; try discriminate; try (body cr); try reflexivity; try assumption.
  all: repeat match goal with X : ?b = _ |- context [if ?b then _ else _] => rewrite X end; try reflexivity.
  all: bools; subst; try reflexivity.
  cbn [idcred_of]. destruct a as [|x [|y l]]; [now rewrite zlen_nil in *|reflexivity|].
  rewrite !zlen_cons in *. pose proof (zlen_nonneg _ l). lia.
Qed.
Lemma ok_cred_bytes : forall cr cap w, sat Any (cred_bytes cr cap) w (fun x w' => w' = w /\
  forall b, x = Some b -> (cr_label cr =? COSE_ANY) || (cr_label cr =? COSE_KID) ||
    (cr_label cr =? COSE_CHAIN) || (cr_label cr =? COSE_HASH) = true -> b = cred_bytes_of cr).
Proof.
  intros cr cap w. unfold cred_bytes, cred_bytes_of.
  repeat match goal with
  | |- sat _ (bind _ _) _ _ => apply sat_bind
  | |- sat _ (need _ _) _ _ => apply sy_need; intros [[[[? ?] ?] ?] ?] ?
  | |- sat _ (need _ _) _ _ => apply sy_need; intros ? ?
  | |- sat _ (if ?b then _ else _) _ _ => destruct b eqn:?
  | |- sat _ (ret _) _ _ => apply sat_ret; split; [reflexivity|]; intros ? ? ?
  end; body cr; rewrite <- ?enc_bstr_rfc;
  repeat match goal with F : fits _ _ = Some _ |- _ => apply fits_some in F as [-> _] end; try reflexivity.
  - now inversion H0.
  - now inversion H0.
Qed.

(** ** EAD items *)
Lemma ok_read_toks : forall l w, sat Any (read_toks tok_present l) w
  (fun x w' => w' = w /\ x = map ead_of l /\ Forall token_in l).
Proof.
  induction l as [|k l IH]; intro w; cbn [read_toks map]; [apply sat_ret; split; [reflexivity|split; [reflexivity|constructor]]|].
  apply sat_bind. unfold tok_present at 1, ead_of at 1, rd_tok.
  destruct (zs_ptr (tk_val k)) as [b|] eqn:Z.
  - apply sat_bind. destruct (Z.leb_spec (zs_len (tk_val k)) 0) as [L|L].
    + do 2 apply sat_ret. apply sat_bind. eapply sat_conseq; [apply IH|]. intros x w' (-> & -> & F). cbv beta.
      apply sat_ret. split; [reflexivity|]. split.
      * do 4 f_equal. unfold take. now replace (Z.to_nat (zs_len (tk_val k))) with 0%nat by lia.
      * constructor; [|exact F]. unfold token_in. rewrite Z. pose proof (zlen_nonneg _ b). lia.
    + apply sat_bind, sy_check. intros G. do 2 apply sat_ret.
      apply sat_bind. eapply sat_conseq; [apply IH|]. intros x w' (-> & -> & F). cbv beta.
      apply sat_ret. split; [reflexivity|]. split; [reflexivity|]. constructor; [|exact F]. unfold token_in. rewrite Z. lia.
  - apply sat_ret. apply sat_bind. eapply sat_conseq; [apply IH|]. intros x w' (-> & -> & F). cbv beta.
    apply sat_ret. split; [reflexivity|]. split; [reflexivity|]. constructor; [|exact F]. unfold token_in. now rewrite Z.
Qed.
Lemma ok_encode_tokens : forall cap l w, sat Any (encode_tokens tok_present cap l) w
  (fun x w' => w' = w /\ forall b, x = Some b -> b = eads l /\ eads_in l).
Proof.
  intros cap l w. unfold encode_tokens. apply sat_bind, sy_check. intros G.
  destruct (zlen l =? 0); [apply sat_ret; now split|].
  destruct (cap <? zsum (map (tok_size tok_present) l)); [apply sat_ret; now split|].
  apply sat_bind. eapply sat_conseq; [apply ok_read_toks|]. intros x w' (-> & -> & F). cbv beta.
  apply sat_ret. split; [reflexivity|]. intros b Hb. split; [now apply enc_ead_rfc in Hb|]. split; [exact F|lia].
Qed.

(** ** The MAC context *)
(** What is written into the plaintext for ID_CRED_x. *)
Definition id_sent (cr : creds) : bytes :=
  match cr_body cr with
  | CKid _ is_cbor e ki kb =>
    if e =? ENC_INT then [u8 (if is_cbor then ki else unle4 (enc_int ki ++ zeros 4))]
    else if is_cbor then
      if zlen kb =? 1 then
        match dec_one_int cf_canon (le4 (nth 0 kb 0)) with
        | Some r => if is_one_byte_int r then [u8 (nth 0 kb 0)] else kb
        | None => kb
        end
      else kb
    else enc_bstr kb
  | CAny i is_comp e ce _ =>
    if is_comp then if e =? ENC_INT then [u8 (unle4 (ce ++ zeros 4))] else ce else i
  | _ => id_bytes cr
  end.
Definition id_written (m : macctx) : bytes :=
  if mc_comp m then if mc_ctype m =? ENC_INT then [u8 (mc_cint m)] else mc_cbstr m else mc_id m.

Lemma ok_kid_compact : forall cr w, sat Any (kid_compact_encoding cr) w (fun x w' => w' = w /\
  (fst x = OK -> let '(ct, ci, cb) := snd x in
     (exists a b c d e, cr_body cr = CKid a b c d e) /\
     id_sent cr = if ct =? ENC_INT then [u8 ci] else cb)).
Proof.
  intros cr w. unfold kid_compact_encoding, id_sent.
  repeat match goal with
  | |- sat _ (bind _ _) _ _ => apply sat_bind
  | |- sat _ (need _ _) _ _ => apply sy_need; intros [[[[? ?] ?] ?] ?] ?; body cr
  | |- sat _ (check _ _) _ _ => apply sy_check; intros ?
  | |- sat _ (if ?b then _ else _) _ _ => destruct b eqn:?
  | |- sat _ (match ?x with _ => _ end) _ _ => destruct x eqn:?
  | |- sat _ (let _ := _ in _) _ _ => cbv zeta
  | |- sat _ (ret _) _ _ => apply sat_ret; split; [reflexivity|]; cbn [fst snd]; intros ?;
      try discriminate; (split; [do 5 eexists; reflexivity|])
  end; try reflexivity.
  all: repeat match goal with X : ?b = _ |- context [if ?b then _ else _] => rewrite X end; try reflexivity.
  all: repeat match goal with X : ?b = _ |- context [match ?b with _ => _ end] => rewrite X end; try reflexivity.
  all: repeat match goal with F : fits _ _ = Some _ |- _ => apply fits_some in F as [-> _] end; try reflexivity.
Qed.

(** The compact identifier (second half of the ID_CRED_x block). *)
Definition comp_part (cr : creds) : M (Z * (bool * (Z * Z * bytes))) :=
  if cr_label cr =? COSE_KID then
    '(r, x) <- kid_compact_encoding cr ;;
    if negb (r =? OK) then ret (E_CBOR, (true, x)) else ret (OK, (true, x))
  else if cr_label cr =? COSE_ANY then
    '(_, is_comp, e, ce, _) <- need (as_any (cr_body cr)) UbUnion ;;
    if is_comp then
      if e =? ENC_INT then
        check (zlen ce <=? 4) UbWrite ;;;
        ret (OK, (true, (e, unle4 (ce ++ zeros 4), [])))
      else if e =? ENC_BSTR then
        check (zlen ce <=? cf_max_kid + 1) UbWrite ;;; ret (OK, (true, (e, 0, ce)))
      else ret (E_NOT_PERMITTED, (true, (e, 0, [])))
    else ret (OK, (false, (0, 0, [])))
  else ret (OK, (false, (0, 0, []))).
Lemma ok_comp_part : forall cr w,
  sat Any (comp_part cr) w (fun x w' => w' = w /\
    (fst x = OK -> let '(comp, (ct, ci, cb)) := snd x in
       (match cr_body cr with CKid _ _ _ _ _ => (cr_label cr =? COSE_KID) = true
        | CAny _ _ _ _ _ => (cr_label cr =? COSE_ANY) = true
        | _ => True end) ->
       id_sent cr = if comp then if ct =? ENC_INT then [u8 ci] else cb else id_bytes cr)).
Proof.
  intros cr w. unfold comp_part. destruct (cr_label cr =? COSE_KID) eqn:K.
  - apply sat_bind. eapply sat_conseq; [apply ok_kid_compact|]. intros [r [[ct ci] cb]] w' [-> H]. cbn [fst snd] in H.
    destruct (r =? OK) eqn:R; cbn [negb]; apply sat_ret; (split; [reflexivity|]); cbn [fst snd]; [|discriminate].
    intros _ _. bools. now apply H.
  - destruct (cr_label cr =? COSE_ANY) eqn:A.
    + apply sat_bind, sy_need. intros [[[[i is_comp] e] ce] ca] H. unfold id_sent, id_bytes.
      destruct (cr_body cr); try discriminate. injection H; intros; subst.
      repeat match goal with
      | |- sat _ (bind _ _) _ _ => apply sat_bind
      | |- sat _ (check _ _) _ _ => apply sy_check; intros ?
      | |- sat _ (if ?b then _ else _) _ _ => destruct b eqn:?
      | |- sat _ (ret _) _ _ => apply sat_ret; split; [reflexivity|]; cbn [fst snd]; intros ? ?;
          try discriminate
      end; try reflexivity.
      all: repeat match goal with X : ?b = _ |- context [if ?b then _ else _] => rewrite X end; try reflexivity.
    + apply sat_ret. split; [reflexivity|]. cbn [fst snd]. intros _ H. unfold id_sent.
      destruct (cr_body cr); try reflexivity; discriminate.
Qed.

Definition mac_post (cr : creds) (c : ctx) (m : macctx) : Prop :=
  mc_cid m = (if c_message c =? MSG_2 then cbor (cid_item (cid_rfc (mac_cid c))) else []) /\
  mc_id m = id_bytes cr /\ mc_th m = cbor (Bstr (th_of c)) /\ mc_cred m = cred_bytes_of cr /\
  mc_ead m = eads (c_tokens c) /\ mc_is_ead m = negb (zlen (c_tokens c) =? 0) /\ eads_in (c_tokens c) /\
  id_written m = id_sent cr /\
  (c_message c = MSG_2 -> c_th_state c = TH_2) /\ (c_message c = MSG_3 -> c_th_state c = TH_3) /\
  role_ok c = true.
Lemma ok_comp_mac_context : forall cr n w,
  sat Any (comp_mac_context cr n) w (fun x w' => fst x = OK -> w' = w /\ mac_post cr (w_ctx w) (snd x)).
Proof.
  intros cr n [c t]. unfold comp_mac_context. fold (comp_part cr). do 8 sy.
  assert (HC : forall b, (if c_message c =? MSG_2 then encode_cid (mac_cid c) z0 else Some []) = Some b ->
    b = if c_message c =? MSG_2 then cbor (cid_item (cid_rfc (mac_cid c))) else []).
  { intros b Hb. destruct (c_message c =? MSG_2); [|now inversion Hb]. unfold encode_cid, cid_rfc in *.
    destruct (cid_type (mac_cid c) =? CID_INT); apply fits_some in Hb as [-> _];
      [apply enc_int_rfc|apply enc_bstr_rfc]. }
  sy. specialize (HC _ eq_refl). sy. apply ok_id_cred_len. intros [r1 l1] HL. do 2 sy. cbn [fst] in HL.
  apply Z.eqb_eq in X6. specialize (HL X6). clear X6 r1.
  eapply sat_conseq; [apply ok_id_cred_of|]. intros ic w' [-> HI]. cbv beta.
  destruct ic as [e|o]; [apply sat_ret; cbn [fst]; intro; contradiction|].
  apply sat_bind.
  apply (sat_conseq _ _ _ _ (fun x w' => w' = Wd c t /\ forall b, x = Some b -> b = id_bytes cr)).
  { destruct o as [i|].
    - apply sat_ret. split; [reflexivity|]. intros q H. destruct (enc_id_cred i) eqn:Hi; [|discriminate].
      apply fits_some in H as [-> _]. apply enc_id_cred_rfc in Hi. congruence.
    - apply sat_bind, sy_need. intros [[[[i0 ?] ?] ?] ?] Ha. apply sat_ret. split; [reflexivity|].
      intros q H. unfold id_bytes. destruct (cr_body cr); try discriminate. injection Ha; intros; subst.
      now inversion H. }
  intros idb w' [-> Hid]. cbv beta. destruct idb as [idb|]; [|deadend]. specialize (Hid _ eq_refl). subst idb.
  apply sat_bind. eapply sat_conseq; [apply ok_comp_part|]. intros [rc [comp [[ct ci] cb]]] w' [-> Hco]. cbv beta iota.
  sy. bools. cbn [fst snd] in Hco. specialize (Hco eq_refl).
  assert (Hs : id_sent cr = if comp then if ct =? ENC_INT then [u8 ci] else cb else id_bytes cr).
  { apply Hco. unfold labelled in HL. destruct (cr_body cr); auto. }
  do 5 sy. match goal with F : fits _ (enc_bstr _) = Some _ |- _ => apply fits_some in F as [-> _] end. 
  sy. apply ok_cred_len. intros [r3 l3]. do 2 sy. 
  eapply sat_conseq; [apply ok_cred_bytes|]. intros crb w' [-> Hcr]. cbv beta.
  destruct crb as [crb|]; [|deadend].
  assert (crb = cred_bytes_of cr) as ->.
  { apply Hcr; [reflexivity|]. unfold labelled in HL. destruct (cr_body cr); try contradiction; rewrite HL, ?orb_true_r; reflexivity. }
  apply sat_bind.
  apply (sat_conseq _ _ _ _ (fun x w' => w' = Wd c t /\ forall b, x = Some b -> b = eads (c_tokens c) /\ eads_in (c_tokens c))).
  { destruct (zlen (c_tokens c) =? 0) eqn:Z0.
    - apply sat_ret. split; [reflexivity|]. intros q Hq. bools. apply zlen_0 in Z0. rewrite Z0. split; [now inversion Hq|]. split; [constructor|]. change (zlen (@nil token)) with 0. lia.
    - apply ok_encode_tokens. }
  intros eb w' [-> Heb]. cbv beta. destruct eb as [eb|]; [|deadend]. destruct (Heb _ eq_refl) as [-> HT].
  sy. apply sat_ret. cbn [fst snd w_ctx]. intros _. split; [reflexivity|].
  unfold mac_post, id_written. cbn [mc_cid mc_id mc_comp mc_ctype mc_cint mc_cbstr mc_th mc_cred mc_is_ead mc_ead].
  repeat split; try congruence; try reflexivity; try apply HT.
  - now rewrite enc_bstr_rfc.
  - intro M. rewrite M in X1. cbn in X1. bools. assumption.
  - intro M. rewrite M in X2. cbn in X2. bools. assumption.
Qed.

(** ** MAC and signature *)
(** The party that authenticates in the current message uses static DH. *)
Definition static_of (c : ctx) : bool :=
  if c_message c =? MSG_2 then responder_static (c_chosen_method c)
  else initiator_static (c_chosen_method c).
Lemma signs_static : forall c b, signs (c_message c) (c_chosen_method c) = Some b ->
  static_of c = negb b /\ (c_message c = MSG_2 \/ c_message c = MSG_3) /\ 0 <= c_chosen_method c <= 3.
Proof.
  intros c b H. unfold signs, static_of, responder_static, initiator_static, MSG_2, MSG_3 in *.
  destruct (Z.eqb_spec (c_message c) 1); [|destruct (Z.eqb_spec (c_message c) 2); [|discriminate]].
  all: repeat match type of H with (if ?x then _ else _) = _ => destruct x eqn:? end;
       try discriminate; inversion H; subst; repeat split; try lia; cbn [negb]; lia.
Qed.
Lemma ok_comp_mac_length : forall c t,
  sat Any comp_mac_length (Wd c t) (fun x w' => fst x = OK -> w' = Wd c t /\
    snd x = mac_length (the_suite c) (static_of c) /\ (c_message c = MSG_2 \/ c_message c = MSG_3) /\
    0 <= c_chosen_method c <= 3).
Proof.
  intros c t. unfold comp_mac_length. repeat sy.
  all: apply sat_ret; cs; intros _; apply signs_static in X0 as [S [M L]]; rewrite S; repeat split; auto; lia.
Qed.
Lemma ok_comp_som_length : forall c t,
  sat Any comp_sign_or_mac_length (Wd c t) (fun x w' => fst x = OK -> w' = Wd c t).
Proof.
  intros c t. unfold comp_sign_or_mac_length. repeat sy.
  all: apply sat_ret; cs; intros _; reflexivity.
Qed.
Lemma ok_comp_mac : forall m n c t, 0 <= n < 2 ^ 32 ->
  sat Any (comp_mac m n) (Wd c t) (fun x w' => fst x = OK ->
    exists t', w' = Wd c (t' ++ t) /\
      expanded t' (prk_of c) (info (if c_message c =? MSG_2 then MAC_2 else MAC_3) (mc_buf m) n) n (snd x) /\
      zlen (snd x) = n).
Proof.
  intros m n c t Hn. unfold comp_mac. repeat sy. fin.
  match goal with F : fits _ (enc_info _ _ _) = Some _ |- _ => apply fits_some in F as [-> _] end.
  eexists. split; [trx|]. split; [|now apply zlen_blit_zeros].
  eexists. eexists. split; [|split; [eassumption|now apply blit_zeros_read]].
  rewrite <- enc_info_rfc, u32_id by assumption.
  replace (if c_message c =? MSG_2 then MAC_2 else MAC_3)
    with (if c_message c =? MSG_2 then L_MAC_2 else if c_message c =? MSG_3 then L_MAC_3 else 0).
  - keyed.
  - apply orb_true_iff in X5. destruct (c_message c =? MSG_2); [reflexivity|].
    destruct X5 as [X5|X5]; [discriminate|]. now rewrite X5.
Qed.
Lemma ok_sign_cose : forall cr m mac size c t,
  sat Any (sign_cose_sign_1 cr m mac size) (Wd c t) (fun x w' => fst x = OK ->
    exists t', w' = Wd c (t' ++ t) /\
      signed t' (cr_priv cr) (sig_structure (mc_id m) (mc_aad m) mac) (snd x)).
Proof.
  intros. unfold sign_cose_sign_1. repeat sy. fin.
  match goal with F : fits _ _ = Some _ |- _ => apply fits_some in F as [-> _] end.
  eexists. split; [trx|]. rewrite <- enc_sig_structure_rfc. lift.
Qed.
Lemma ok_verify_cose : forall m pub mac sign c t,
  sat Any (verify_cose_sign_1 m pub mac sign) (Wd c t) (fun r w' => r = OK ->
    exists t', w' = Wd c (t' ++ t) /\
      verified t' pub (sig_structure (mc_id m) (mc_aad m) mac) sign).
Proof.
  intros. unfold verify_cose_sign_1. repeat sy. fin.
  match goal with F : fits _ _ = Some _ |- _ => apply fits_some in F as [-> _] end.
  eexists. split; [trx|]. rewrite <- enc_sig_structure_rfc. eexists. keyed.
Qed.
Lemma ok_comp_sign_or_mac : forall cr m mac size c t,
  sat Any (comp_sign_or_mac cr m mac size) (Wd c t) (fun x w' => fst x = OK ->
    exists t', w' = Wd c (t' ++ t) /\
      if static_of c then snd x = mac
      else signed t' (cr_priv cr) (sig_structure (mc_id m) (mc_aad m) mac) (snd x)).
Proof.
  intros. unfold comp_sign_or_mac. do 3 sy.
  destruct (signs (c_message c) (c_chosen_method c)) as [[|]|] eqn:S.
  - apply signs_static in S as [-> _]. apply ok_sign_cose.
  - apply signs_static in S as [-> _]. repeat sy. fin. exists []. split; reflexivity.
  - sy; deadend.
Qed.
Lemma ok_verify_sign_or_mac : forall m pub sign mac c t,
  sat Any (verify_sign_or_mac m pub sign mac) (Wd c t) (fun r w' => r = OK ->
    exists t', w' = Wd c (t' ++ t) /\
      if static_of c then sign = mac
      else verified t' pub (sig_structure (mc_id m) (mc_aad m) mac) sign).
Proof.
  intros. unfold verify_sign_or_mac. do 3 sy.
  destruct (signs (c_message c) (c_chosen_method c)) as [[|]|] eqn:S.
  - apply signs_static in S as [-> _]. apply ok_verify_cose.
  - apply signs_static in S as [-> _]. cbn [negb]. sy.
    + destruct (c_message c =? MSG_2); deadend.
    + fin. exists []. split; [reflexivity|]. now apply beqb_eq.
  - sy; deadend.
Qed.

(** ** Plaintexts *)
Lemma ok_fill_plaintext : forall m sign pre size w, (mc_is_ead m = false -> mc_ead m = []) ->
  sat Any (fill_plaintext m sign pre size) w (fun x w' => fst x = OK -> w' = w /\
    snd x = pre ++ id_written m ++ cbor (Bstr sign) ++ mc_ead m).
Proof.
  intros m sign pre size w He. unfold fill_plaintext, id_written.
  apply sat_bind.
  apply (sat_conseq _ _ _ _ (fun x w' => w' = w /\ (fst x = OK -> snd x =
    if mc_comp m then if mc_ctype m =? ENC_INT then [u8 (mc_cint m)] else mc_cbstr m else mc_id m))).
  { destruct (mc_comp m); [|apply sat_ret; now split].
    destruct (mc_ctype m =? ENC_INT); [apply sat_ret; now split|].
    destruct (mc_ctype m =? ENC_BSTR); apply sat_ret; now split. }
  intros [r idb] w' [-> Hid]. cbn [fst snd] in Hid. cbv beta iota. sy. bools. rewrite (Hid eq_refl). repeat sy.
  apply sat_ret. cbn [fst snd]. intros _.
  match goal with F : fits _ _ = Some _ |- _ => apply fits_some in F as [-> _] end.
  split; [reflexivity|]. rewrite <- enc_bstr_rfc. destruct (mc_is_ead m).
  - now rewrite <- !app_assoc.
  - rewrite He by reflexivity. now rewrite app_nil_r, <- !app_assoc.
Qed.
Lemma ok_prepare_plaintext_2 : forall m sign size c t, (mc_is_ead m = false -> mc_ead m = []) ->
  sat Any (prepare_plaintext_2 m sign size) (Wd c t) (fun x w' => fst x = OK -> w' = Wd c t /\
    snd x = cbor (cid_item (cid_rfc (c_cid c))) ++ id_written m ++ cbor (Bstr sign) ++ mc_ead m).
Proof.
  intros. unfold prepare_plaintext_2. do 3 sy. sy.
  assert (b = cbor (cid_item (cid_rfc (c_cid c)))) as ->.
  { unfold encode_cid, cid_rfc in *. destruct (cid_type (c_cid c) =? CID_INT);
      apply fits_some in X0 as [-> _]; [apply enc_int_rfc|apply enc_bstr_rfc]. }
  now apply ok_fill_plaintext.
Qed.
Lemma ok_comp_plaintext_len : forall m n w (Q : Z * Z -> world -> Prop),
  (forall x, Q x w) -> sat Any (comp_plaintext_len m n) w Q.
Proof.
  intros m n w Q H. unfold comp_plaintext_len. destruct (n =? 0); [apply sat_ret, H|].
  apply sat_bind, sat_getc, sat_ret, H.
Qed.
Lemma ok_comp_keystream : forall prk n c t,
  sat Any (comp_keystream prk n) (Wd c t) (fun x w' => fst x = OK ->
    exists t', w' = Wd c (t' ++ t) /\
      expanded t' prk (info KEYSTREAM_2 (th_of c) (u32 n)) n (snd x) /\ zlen (snd x) = n).
Proof.
  intros prk n c t. unfold comp_keystream. repeat sy.
  eapply sat_conseq; [apply ok_kdf; [apply reads_th|apply reads_ret]|]. intros [r out] w' H. exact H.
Qed.
Lemma ok_prepare_message_2 : forall ctxt size c t,
  sat Any (prepare_message_2 ctxt size) (Wd c t) (fun x w' => fst x = OK ->
    exists t', w' = Wd c (t' ++ t) /\ snd x = cbor (Bstr (pub_of c ++ ctxt)) /\ zlen (snd x) <= size).
Proof.
  intros. unfold prepare_message_2. repeat sy. fin.
  match goal with F : fits _ _ = Some _ |- _ => apply fits_some in F as [-> L] end.
  eexists. split; [trx|]. split; [apply enc_bstr_rfc|assumption].
Qed.

(** ** Transcript *)
Lemma ok_comp_th_next : forall cur next strict m ptxt c t,
  sat Any (comp_th_next cur next strict m ptxt) (Wd c t) (fun r w' => r = OK ->
    let n := cs_hash (the_suite c) in
    exists t' th,
      w' = Wd (set_th_state next (set_th (blit (c_th c) th) (set_th_len n c))) (t' ++ t) /\
      hashed t' (cbor (Bstr (th_of c)) ++ ptxt ++ mc_cred m) n th /\ c_th_state c = cur /\
      (strict = true -> zlen th = n) /\ ptxt <> []).
Proof.
  intros. unfold comp_th_next, hash_into_th. repeat sy. fin.
  match goal with F : fits _ _ = Some _ |- _ => apply fits_some in F as [-> _] end.
  assert (zlen (enc_bstr (th_of c) ++ ptxt ++ mc_cred m) =
          c_th_len c + bstr_oh (c_th_len c) + zlen ptxt + zlen (mc_cred m)) as L.
  { rewrite !zlen_app in *. rewrite enc_bstr_rfc, zlen_bstr in *. 
    pose proof (zlen_nonneg _ (th_of c)) as T. 
    destruct (Z.le_gt_cases 0 (c_th_len c)) as [P|P].
    - unfold th_of in *. rewrite zlen_arr_read in * by assumption.
      assert (c_th_len c <= 65535) as B by (apply (str_size 2); lia).
      rewrite (str_size_exact 2) by lia. lia.
    - assert (bstr_oh (c_th_len c) = 1) as B by (unfold bstr_oh; destruct (Z.leb_spec (c_th_len c) 23); lia).
      assert (0 <= arg_width (zlen (th_of c))) by (unfold arg_width; repeat destruct (_ <? _); lia). rewrite zlen_head in *. lia. }
  rewrite arr_read_exact in * by assumption.
  do 2 eexists. split; [trx|]. split; [rewrite <- enc_bstr_rfc; lift|]. split; [assumption|]. split.
  - intros ->. cbn in *. bools. assumption.
  - intros ->. now rewrite zlen_nil in *.
Qed.

(** ** EAD callbacks *)
Lemma set_tokens_eta : forall c, set_tokens (c_tokens c) c = c.
Proof. destruct c; reflexivity. Qed.
Lemma ok_ead_compose : forall c t,
  sat Any ead_compose (Wd c t) (fun ok w' => ok = true ->
    exists t' l, w' = Wd (set_tokens l c) (t' ++ t) /\
      ((exists f, f_compose (c_ead c) = Some f /\ cf_max_ead <> 0 /\ t' = [EvEadCompose (c_message c) OK l] /\ zlen l <= cf_max_ead) \/
       ((f_compose (c_ead c) = None \/ cf_max_ead = 0) /\ t' = [] /\ l = c_tokens c))).
Proof.
  intros c t. unfold ead_compose. apply sat_bind, sat_getc. cbn [w_ctx].
  destruct (f_compose (c_ead c)) as [f|] eqn:F.
  - destruct (cf_max_ead =? 0) eqn:M.
    + apply sat_ret. intros _. exists [], (c_tokens c). rewrite set_tokens_eta. bools. split; [reflexivity|]. right. auto.
    + repeat sy. apply sat_ret. intro H. bools. exists [EvEadCompose (c_message c) OK l], l. split; [reflexivity|].
      left. exists f. repeat split; auto. lia.
  - apply sat_ret. intros _. exists [], (c_tokens c). rewrite set_tokens_eta. split; [reflexivity|]. right. auto.
Qed.
Lemma ok_ead_process : forall c t,
  sat Any ead_process (Wd c t) (fun ok w' => ok = true ->
    exists t', w' = Wd c (t' ++ t) /\
      ((exists f, f_process (c_ead c) = Some f /\ cf_max_ead <> 0 /\ c_tokens c <> [] /\
          t' = [EvEadProcess (c_message c) (c_tokens c) OK]) \/
       ((f_process (c_ead c) = None \/ cf_max_ead = 0 \/ c_tokens c = []) /\ t' = []))).
Proof.
  intros c t. unfold ead_process. apply sat_bind, sat_getc. cbn [w_ctx].
  destruct (f_process (c_ead c)) as [f|] eqn:F.
  - destruct ((cf_max_ead =? 0) || (zlen (c_tokens c) =? 0)) eqn:M.
    + apply sat_ret. intros _. exists []. split; [reflexivity|]. right. split; [|reflexivity].
      apply orb_true_iff in M as [M|M]; bools; auto. apply zlen_0 in M. auto.
    + repeat sy. apply sat_ret. intro H. bools. eexists. split; [trx|].
      left. exists f. repeat split; auto. intro Z0. rewrite Z0, zlen_nil in *. auto.
  - apply sat_ret. intros _. exists []. split; [reflexivity|]. right. auto.
Qed.
End Steps2.
