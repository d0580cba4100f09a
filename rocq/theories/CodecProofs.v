(** Size estimates, helper framing, error messages. *)
From Verif Require Import Monad Facts Common MsgError Helpers CborProofs Rfc RfcProofs.

(** ** Sizes *)
Lemma zlen_head : forall m n, zlen (head m n) = 1 + arg_width n.
Proof.
  intros. unfold head. rewrite zlen_cons. f_equal. unfold octets. rewrite zlen_map. unfold zlen.
  rewrite seq_length. unfold arg_width. repeat destruct (_ <? _); reflexivity.
Qed.
Lemma arg_width_cases : forall n, arg_width n =
  if n <? 24 then 0 else if n <? 256 then 1 else if n <? 65536 then 2 else if n <? 4294967296 then 4 else 8.
Proof. reflexivity. Qed.
Lemma int_size : forall v, zlen (cbor (Num v)) <= int_mem_req v <-> -65536 <= v <= 65535.
Proof.
  intro v. unfold int_mem_req. cbn [cbor].
  destruct (v <? 0) eqn:V; rewrite zlen_head, arg_width_cases;
    repeat match goal with |- context [if ?b then _ else _] => destruct b eqn:?; try lia end.
Qed.
Lemma int_size_exact : forall v, -65536 <= v <= 65535 -> int_mem_req v = zlen (cbor (Num v)).
Proof.
  intros v H. unfold int_mem_req. cbn [cbor].
  destruct (v <? 0) eqn:V; rewrite zlen_head, arg_width_cases;
    repeat match goal with |- context [if ?b then _ else _] => destruct b eqn:?; try lia end.
Qed.
Lemma str_size : forall m n, 0 <= n -> (zlen (head m n) <= bstr_oh n <-> n <= 65535).
Proof.
  intros m n H. unfold bstr_oh. rewrite zlen_head, arg_width_cases;
    repeat match goal with |- context [if ?b then _ else _] => destruct b eqn:?; try lia end.
Qed.
Lemma str_size_exact : forall m n, 0 <= n <= 65535 -> bstr_oh n = zlen (head m n).
Proof.
  intros m n H. unfold bstr_oh. rewrite zlen_head, arg_width_cases;
    repeat match goal with |- context [if ?b then _ else _] => destruct b eqn:?; try lia end.
Qed.
Lemma tstr_bstr_oh : forall n, tstr_oh n = bstr_oh n. Proof. reflexivity. Qed.
Lemma array_size : forall n, 0 <= n -> (zlen (head 4 n) <= array_oh n <-> n <= 65535).
Proof.
  intros n H. unfold array_oh. rewrite zlen_head, arg_width_cases;
    repeat match goal with |- context [if ?b then _ else _] => destruct b eqn:?; try lia end.
Qed.
Lemma map_size : forall n, 0 <= n -> (zlen (head 5 n) <= map_oh n <-> n <= 65535).
Proof.
  intros n H. unfold map_oh. rewrite zlen_head, arg_width_cases;
    repeat match goal with |- context [if ?b then _ else _] => destruct b eqn:?; try lia end.
Qed.
Lemma zlen_bstr : forall b, zlen (cbor (Bstr b)) = zlen (head 2 (zlen b)) + zlen b.
Proof. intro. cbn [cbor]. apply zlen_app. Qed.

(** ** Connection identifiers *)
Definition valid_cid (mx : Z) (i : conn_id) : Prop :=
  cid_type i = CID_INT /\ -24 <= cid_int i <= 23 \/
  cid_type i = CID_BSTR /\ 1 <= zlen (cid_bstr i) <= mx.
(** The identifier a structure stands for. *)
Definition denoted (i : conn_id) : cid :=
  if cid_type i =? CID_INT then CNum (cid_int i) else CBytes (cid_bstr i).
Lemma cid_equal_iff : forall mx a b, valid_cid mx a -> valid_cid mx b ->
  (connection_id_equal (Some a) (Some b) = true <-> denoted a = denoted b).
Proof.
  intros mx a b Ha Hb. unfold connection_id_equal, denoted.
  destruct Ha as [[Ta Ra]|[Ta Ra]]; destruct Hb as [[Tb Rb]|[Tb Rb]]; rewrite Ta, Tb; cbn.
  - rewrite Z.eqb_eq. split; [congruence|intro H; now inversion H].
  - split; discriminate.
  - split; discriminate.
  - rewrite andb_true_iff, beqb_eq. split; [intros [_ ->]; reflexivity|intro H; inversion H; split; [apply Z.eqb_refl|reflexivity]].
Qed.

(** ** Flow *)
Lemma flow_rt : forall p p', prepend_flow p = inl (OK, p') ->
  exists o buf, pf_off p' = Some o /\ pf_buf p' = Some buf /\ pf_msize p' = pf_size p - o /\
  forall msg x, 1 <= zlen msg -> ex_buf x = Some (take o buf ++ msg) -> ex_size x = o + zlen msg ->
  exists x', extract_flow_info x = inl (OK, x') /\ ex_off x' = Some o /\ ex_msize x' = zlen msg /\
    ex_fwd x' = true /\ ex_rev x' = false.
Proof.
  intros p p' H. unfold prepend_flow in H. destruct (pf_buf p) as [b|]; [|discriminate].
  destruct (pf_size p <? 1) eqn:S; [discriminate|]. destruct (zlen b <? 1); [discriminate|].
  inversion H; subst p'; clear H. exists 1, (blit b [245]). repeat (split; [reflexivity|]).
  intros msg x Hm Hb Hs. unfold extract_flow_info. rewrite Hb. rewrite Hs.
  replace (1 <? 1 + zlen msg) with true by lia.
  change (take 1 (blit b [245]) ++ msg) with (245 :: msg). change (245 =? 245) with true. cbv iota.
  eexists. split; [reflexivity|]. cbn [ex_off ex_msize ex_fwd ex_rev]. repeat split; try reflexivity. lia.
Qed.

Section Cids.
Context {E : env}.
Lemma i8_small : forall v, 0 <= v < 128 -> i8 v = v.
Proof. intros. unfold i8. change (2 ^ 8) with 256. rewrite Z.mod_small by lia. replace (v <? 128) with true by lia. reflexivity. Qed.
Lemma enc_one : forall v, 0 <= v <= 23 -> enc_int v = [v].
Proof.
  intros. unfold enc_int, enc_head. replace (v <? 0) with false by lia.
  replace (v <? 24) with true by lia. reflexivity.
Qed.
Lemma take_blit : forall (b e : bytes), take (zlen e) (blit b e) = e.
Proof. intros. unfold blit. now apply take_app_exact. Qed.
Lemma cid_frame_rt : forall p i p', prepend_connection_id p (Some i) = inl (OK, p') ->
  valid_cid cf_max_cid i -> (cid_type i = CID_INT -> 0 <= cid_int i) -> cf_max_cid < 2 ^ 64 -> 0 <= pf_size p ->
  exists o buf, pf_off p' = Some o /\ pf_buf p' = Some buf /\ pf_msize p' = pf_size p - o /\
  o <= pf_size p /\ take o buf = cbor (cid_item (denoted i)) /\
  forall msg x, ex_buf x = Some (take o buf ++ msg) -> ex_size x = o + zlen msg ->
  exists x', extract_connection_id x = inl (OK, x') /\ ex_off x' = Some o /\ ex_msize x' = zlen msg /\
    denoted (ex_cid x') = denoted i /\ valid_cid cf_max_cid (ex_cid x').
Proof.
  intros p i p' H Hv Hi Hx Hs0. unfold prepend_connection_id in H. destruct (pf_buf p) as [b|]; [|discriminate].
  destruct (pf_size p =? 0) eqn:S; [discriminate|].
  destruct Hv as [[T R]|[T R]]; rewrite T in H.
  - specialize (Hi T). change (CID_INT =? CID_INT) with true in H. cbv iota in H.
    destruct (zlen b <? 1) eqn:B; [discriminate|]. inversion H; subst p'; clear H.
    unfold u8. change (2 ^ 8) with 256. rewrite Z.mod_small by lia.
    assert (D : denoted i = CNum (cid_int i)) by (unfold denoted; rewrite T; reflexivity).
    exists 1, (blit b [cid_int i]). repeat (split; [reflexivity|]).
    change 1 with (zlen [cid_int i]). rewrite take_blit. change (zlen [cid_int i]) with 1.
    split; [lia|split].
    + rewrite D. cbn [cid_item]. rewrite <- enc_int_rfc. symmetry. apply enc_one. lia.
    + intros msg x Hb Hs. unfold extract_connection_id. rewrite Hb, Hs. pose proof (zlen_nonneg _ msg).
      replace (1 + zlen msg =? 0) with false by lia. rewrite zlen_app. change (zlen [cid_int i]) with 1.
      replace (1 + zlen msg <? 1 + zlen msg) with false by lia.
      rewrite take_all by (rewrite zlen_app; change (zlen [cid_int i]) with 1; lia).
      rewrite <- enc_one by lia.
      rewrite (cidv_rt _ (CidInt (cid_int i)) (enc_int (cid_int i))); [|cbn; lia| |lia].
      2:{ cbn [enc_cidv]. replace ((-24 <=? cid_int i) && (cid_int i <=? 23)) with true by lia. reflexivity. }
      cbn [d_rest]. rewrite enc_one by lia. rewrite zlen_app. change (zlen [cid_int i]) with 1.
      replace (1 + zlen msg - zlen msg) with 1 by lia.
      eexists. split; [reflexivity|]. cbn [ex_off ex_msize ex_cid].
      change (nth 0 ([cid_int i] ++ msg) 0) with (cid_int i). rewrite i8_small by lia.
      split; [reflexivity|]. split; [lia|]. split; [rewrite D; reflexivity|].
      left. split; [reflexivity|exact R].
  - change (CID_BSTR =? CID_INT) with false in H. change (CID_BSTR =? CID_BSTR) with true in H. cbv iota in H.
    replace ((zlen (cid_bstr i) =? 0) || (cf_max_cid <? zlen (cid_bstr i))) with false in H by lia.
    unfold fits in H. destruct (zlen (enc_bstr (cid_bstr i)) <=? pf_size p) eqn:F; [|discriminate].
    destruct (zlen b <? zlen (enc_bstr (cid_bstr i))) eqn:B; [discriminate|].
    apply (f_equal (fun z => match z with inl (_, q) => q | _ => p end)) in H. subst p'.
    set (e := enc_bstr (cid_bstr i)) in *. cbn [pf_off pf_buf pf_msize].
    assert (D : denoted i = CBytes (cid_bstr i)) by (unfold denoted; rewrite T; reflexivity).
    exists (zlen e), (blit b e). repeat (split; [reflexivity|]). rewrite take_blit.
    split; [lia|split].
    + rewrite D. cbn [cid_item]. apply enc_bstr_rfc.
    + intros msg x Hb Hs. unfold extract_connection_id. rewrite Hb, Hs. pose proof (zlen_nonneg _ msg).
      assert (0 < zlen e). { unfold e, enc_bstr. rewrite zlen_app, enc_head_rfc, zlen_head. unfold arg_width.
        pose proof (zlen_nonneg _ (cid_bstr i)). repeat destruct (_ <? _); lia. }
      replace (zlen e + zlen msg =? 0) with false by lia. rewrite zlen_app.
      replace (zlen e + zlen msg <? zlen e + zlen msg) with false by lia.
      rewrite take_all by (rewrite zlen_app; lia).
      rewrite (cidv_rt _ (CidBstr (cid_bstr i)) e); [|cbn; unfold size_ok; lia|reflexivity|lia].
      cbn [d_rest]. rewrite zlen_app. replace (zlen e + zlen msg - zlen msg) with (zlen e) by lia.
      replace (cf_max_cid <? zlen (cid_bstr i)) with false by lia.
      eexists. split; [reflexivity|]. cbn [ex_off ex_msize ex_cid].
      split; [reflexivity|]. split; [lia|]. split; [rewrite D; reflexivity|].
      right. split; [reflexivity|exact R].
Qed.
Lemma recalc_ok : forall p p', 0 <= pf_size p < 2 ^ 64 -> 0 <= pf_msize p < 2 ^ 64 ->
  prepend_recalculate_size p = (OK, p') ->
  exists o, pf_off p = Some o /\ pf_buf p' = pf_buf p /\ pf_off p' = Some o /\ pf_msize p' = pf_msize p /\
  (o + pf_msize p < 2 ^ 64 -> pf_size p' = o + pf_msize p /\ pf_size p' <= pf_size p).
Proof.
  intros p p' Hs Hm H. unfold prepend_recalculate_size in H. destruct (pf_buf p) as [b|] eqn:B; [|discriminate].
  destruct (pf_off p) as [o|] eqn:O; [|discriminate].
  destruct (pf_size p =? 0); [discriminate|]. destruct (pf_msize p =? 0); [discriminate|].
  destruct (o <? 0) eqn:O1; [discriminate|]. destruct (pf_size p <? o); [discriminate|].
  cbv zeta in H. destruct (pf_size p <? (o + pf_msize p) mod 2 ^ 64) eqn:T; [discriminate|].
  apply (f_equal snd) in H. cbn [snd] in H. subst p'. exists o. cbn [pf_buf pf_off pf_msize pf_size].
  repeat (split; [reflexivity|]). intro L. rewrite Z.mod_small in T |- * by lia. lia.
Qed.
End Cids.

(** ** Error messages *)
Definition err_valid (code : Z) (i : option err_arg) : Prop :=
  match code with
  | 1 => exists b t w, i = Some (EA (Some (EdText b)) t w) /\ 1 <= w <= t /\ w <= zlen b /\ w < 2 ^ 64
  | 2 => exists l t w, i = Some (EA (Some (EdSuites l)) t w) /\ 1 <= w <= t /\ w <= 3 /\ w <= zlen l /\
           Forall int32 l
  | _ => True
  end.
(** The information a valid argument carries. *)
Definition err_data_of (code : Z) (i : option err_arg) : option err_data :=
  match code, i with
  | 1, Some (EA (Some (EdText b)) _ w) => Some (EdText (take w b))
  | 2, Some (EA (Some (EdSuites l)) _ w) => Some (EdSuites (take w l))
  | _, _ => None
  end.
Definition entries (d : err_data) : Z := match d with EdText b => zlen b | EdSuites l => zlen l end.
Definition rfc_info (d : err_data) : errinfo := match d with EdText b => InfoText b | EdSuites l => InfoSuites l end.

Lemma true_not_tstr : forall canon ec r, dec_tstr canon (DS ec (245 :: r)) = None.
Proof. reflexivity. Qed.
Lemma true_not_int : forall canon ec r, dec_int32 canon (DS ec (245 :: r)) = None.
Proof. reflexivity. Qed.
Lemma true_not_suites : forall canon ec r, dec_suites canon (DS ec (245 :: r)) = None.
Proof. reflexivity. Qed.
Lemma int_not_tstr : forall canon v ec r, int32 v -> dec_tstr canon (DS ec (enc_int v ++ r)) = None.
Proof. intros. unfold dec_tstr, dec_str. rewrite int_not_str by (assumption || lia). reflexivity. Qed.
Lemma suites_not_tstr : forall canon s b ec r, suites_ok s -> enc_suites s = Some b ->
  dec_tstr canon (DS ec (b ++ r)) = None.
Proof.
  intros canon [v|l] b ec r Hs H; cbn [enc_suites suites_ok] in *.
  - someinv H. now apply int_not_tstr.
  - destruct Hs as [H1 H2]. replace ((2 <=? zlen l) && (zlen l <=? 3)) with true in H by lia. someinv H.
    rewrite <- app_assoc. unfold dec_tstr. apply dec_str_head_none; lia.
Qed.
Lemma err_info_rt : forall canon i b r, enc_err_info i = Some b ->
  match i with EiTstr t => size_ok t | EiSuites s => suites_ok s | EiTrue => True end ->
  dec_err_info canon (DS 1 (b ++ r)) = Some (i, DS 0 r).
Proof.
  intros canon i b r H Hok. unfold dec_err_info. destruct i as [t|s|]; cbn [enc_err_info] in H.
  - someinv H. rewrite tstr_rt by (assumption || lia). reflexivity.
  - rewrite (suites_not_tstr _ s) by assumption. rewrite (suites_rt _ s) by (assumption || lia). reflexivity.
  - someinv H. cbn [app]. rewrite true_not_tstr, true_not_suites. reflexivity.
Qed.
Lemma message_error_dec : forall canon c i b r, int32 c -> enc_message_error c (Some i) = Some b ->
  match i with EiTstr t => size_ok t | EiSuites s => suites_ok s | EiTrue => True end ->
  dec_message_error canon (b ++ r) = Some (c, Some i).
Proof.
  intros canon c i b r Hc H Hok. unfold enc_message_error in H. destruct (enc_err_info i) as [x|] eqn:X; [|discriminate].
  someinv H. rewrite <- app_assoc. unfold dec_message_error. rewrite int_rt by (assumption || lia).
  unfold present. rewrite (err_info_rt _ i) by assumption. reflexivity.
Qed.
Lemma message_error_dec0 : forall canon c, int32 c -> dec_message_error canon (enc_int c) = Some (c, None).
Proof.
  intros canon c Hc. unfold dec_message_error. rewrite <- (app_nil_r (enc_int c)). rewrite int_rt by (assumption || lia).
  reflexivity.
Qed.
Lemma enc_nonempty : forall v r, zlen (enc_int v ++ r) =? 0 = false.
Proof.
  intros. rewrite zlen_app, enc_int_rfc. cbn [cbor]. pose proof (zlen_nonneg _ r).
  destruct (v <? 0); rewrite zlen_head; unfold arg_width; repeat destruct (_ <? _); lia.
Qed.

Lemma error_rt : forall size code i msg canon total,
  message_error_compose true size code i = inl (OK, msg) -> err_valid code i ->
  match err_data_of code i with Some d => entries d <= total | None => True end -> 0 < total ->
  zlen msg <= size /\
  msg = error_message code (if code =? 3 then Some InfoTrue else option_map rfc_info (err_data_of code i)) /\
  message_error_process canon true msg (Some total) = inl (OK, EO (Some code) (err_data_of code i)).
Proof.
  intros size code i msg canon total H Hv Ht Hp. unfold message_error_compose in H. cbn [negb orb] in H.
  destruct (size =? 0); [discriminate|].
  destruct ((code <? EC_SUCCESS) || (EC_UNKNOWN_CRED <? code)) eqn:R; [discriminate|].
  assert (C : code = 0 \/ code = 1 \/ code = 2 \/ code = 3) by (unfold EC_SUCCESS, EC_UNKNOWN_CRED in R; lia).
  unfold message_error_process. cbn [negb orb].
  destruct C as [->|[->|[->| ->]]].
  - cbn [Z.eqb EC_SUCCESS enc_message_error] in H. unfold fits in H.
    destruct (zlen (enc_int 0) <=? size) eqn:F; [|discriminate]. inversion H; subst msg.
    split; [lia|]. split; [reflexivity|]. reflexivity || (destruct canon; reflexivity).
  - cbn [err_valid] in Hv. destruct Hv as (b & t & w & -> & Hw & Hl & Hz).
    change (1 =? EC_SUCCESS) with false in H. change (1 =? EC_UNKNOWN_CRED) with false in H. cbv iota zeta in H.
    unfold err_arg_ok in H. cbn [ea_ptr ea_total ea_written] in H.
    replace (true && negb (t =? 0) && negb (w =? 0) && (w <=? t)) with true in H by lia. cbn [negb] in H.
    change (1 =? EC_UNSPECIFIED) with true in H. cbn [negb] in H. replace (zlen b <? w) with false in H by lia.
    destruct (enc_message_error 1 (Some (EiTstr (take w b)))) as [m|] eqn:M; [|discriminate].
    unfold fits in H. destruct (zlen m <=? size) eqn:F; [|discriminate]. inversion H; subst msg.
    split; [lia|]. split; [exact (enc_message_error_rfc _ _ _ M)|].
    assert (L : zlen (take w b) = w) by (apply zlen_take; lia).
    assert (D : dec_message_error canon (m ++ []) = Some (1, Some (EiTstr (take w b)))).
    { apply message_error_dec; [unfold int32; lia|assumption|unfold size_ok; lia]. }
    rewrite app_nil_r in D. rewrite D.
    unfold enc_message_error in M. cbn [enc_err_info] in M. someinv M. rewrite enc_nonempty.
    change (1 =? EC_SUCCESS) with false. change (1 =? EC_UNKNOWN_CRED) with false.
    change (1 =? EC_UNSPECIFIED) with true. cbn [orb]. replace (total =? 0) with false by lia.
    cbn [as_text]. cbn [err_data_of entries] in *. rewrite L in *. replace (total <? w) with false by lia.
    replace (w =? 0) with false by lia. reflexivity.
  - cbn [err_valid] in Hv. destruct Hv as (l & t & w & -> & Hw & H3 & Hl & Hz).
    change (2 =? EC_SUCCESS) with false in H. change (2 =? EC_UNKNOWN_CRED) with false in H. cbv iota zeta in H.
    unfold err_arg_ok in H. cbn [ea_ptr ea_total ea_written] in H.
    replace (true && negb (t =? 0) && negb (w =? 0) && (w <=? t)) with true in H by lia. cbn [negb] in H.
    change (2 =? EC_WRONG_SUITE) with true in H. cbn [negb] in H. replace (zlen l <? w) with false in H by lia.
    assert (L : zlen (take w l) = w) by (apply zlen_take; lia).
    set (s := if w =? 1 then SuInt (nth 0 l 0) else SuList (take w l)).
    assert (T : take w l = suites_list s).
    { unfold s. destruct (w =? 1) eqn:W; [|reflexivity]. assert (w = 1) by lia. subst w.
      destruct l as [|x l]; [cbn in Hl; lia|]. reflexivity. }
    assert (I : Forall int32 (take w l)).
    { rewrite Forall_forall in Hz |- *. intros x Hx. apply Hz. unfold take in Hx.
      rewrite <- (firstn_skipn (Z.to_nat w) l). apply in_or_app. now left. }
    assert (Sk : suites_ok s).
    { unfold s in *. destruct (w =? 1) eqn:W; cbn [suites_ok].
      - rewrite T in I. cbn [suites_list] in I. now inversion I.
      - split; [lia|exact I]. }
    assert (H' : (match (match enc_message_error 2 (Some (EiSuites s)) with Some b => fits size b | None => None end) with
       | Some b => inl (OK, b) | None => inl (E_CBOR, []) end : (Z * bytes) + ub) = inl (OK, msg)).
    { unfold s. destruct (w =? 1) eqn:W; [exact H|]. replace (3 <? w) with false in H by lia. exact H. }
    clear H. destruct (enc_message_error 2 (Some (EiSuites s))) as [m|] eqn:M; [|discriminate].
    unfold fits in H'. destruct (zlen m <=? size) eqn:F; [|discriminate]. inversion H'; subst msg.
    split; [lia|]. split.
    { rewrite (enc_message_error_rfc _ _ _ M). cbn [option_map errinfo_of err_data_of rfc_info]. rewrite T. reflexivity. }
    assert (D : dec_message_error canon (m ++ []) = Some (2, Some (EiSuites s))).
    { apply message_error_dec; [unfold int32; lia|assumption|assumption]. }
    rewrite app_nil_r in D. rewrite D.
    unfold enc_message_error in M. destruct (enc_err_info (EiSuites s)); [|discriminate]. someinv M. rewrite enc_nonempty.
    change (2 =? EC_SUCCESS) with false. change (2 =? EC_UNKNOWN_CRED) with false.
    change (2 =? EC_UNSPECIFIED) with false. change (2 =? EC_WRONG_SUITE) with true.
    cbn [orb]. replace (total =? 0) with false by lia.
    cbn [as_suites err_data_of entries] in *. rewrite T in *. destruct s as [v|q]; cbn [suites_list] in *; [reflexivity|].
    replace (total <? zlen q) with false by lia. reflexivity.
  - cbn [Z.eqb EC_SUCCESS EC_UNKNOWN_CRED Pos.eqb] in H. change (3 =? EC_UNKNOWN_CRED) with true in H.
    change (3 =? EC_SUCCESS) with false in H. cbv iota in H.
    destruct (enc_message_error 3 (Some EiTrue)) as [m|] eqn:M; [|discriminate].
    unfold fits in H. destruct (zlen m <=? size) eqn:F; [|discriminate]. inversion H; subst msg.
    split; [lia|]. split; [exact (enc_message_error_rfc _ _ _ M)|].
    cbn in M. someinv M. destruct canon; reflexivity.
Qed.

Lemma multi_len : forall A (f : dst -> option (A * dst)) n s l s', multi_loop n f s = (l, s') -> (length l <= n)%nat.
Proof.
  induction n as [|n IH]; intros s l s' H; cbn [multi_loop] in H; [inversion H; cbn; lia|].
  destruct (f s) as [[a s1]|]; [|inversion H; cbn; lia].
  destruct (multi_loop n f s1) as [l1 s2] eqn:L. inversion H; subst. apply IH in L. cbn. lia.
Qed.
Lemma suites_len : forall canon s u s', dec_suites canon s = Some (u, s') ->
  match u with SuInt _ => True | SuList l => 2 <= zlen l <= 3 end.
Proof.
  intros canon s u s' H. unfold dec_suites, dec_suites_p in H.
  destruct (list_start canon s) as [[outer s1]|].
  - unfold multi in H. destruct (multi_loop 3 (dec_int32 canon) s1) as [l s2] eqn:L.
    destruct (2 <=? length l)%nat eqn:G; [|discriminate]. destruct (list_end outer s2); [|discriminate].
    inversion H; subst. apply multi_len in L. apply Nat.leb_le in G. unfold zlen. lia.
  - destruct (dec_int32 canon s) as [[v s1]|]; [|discriminate]. inversion H; subst. exact I.
Qed.
Lemma error_process_safe : forall canon nn msg info,
  match message_error_process canon nn msg info with
  | inl (r, EO code d) =>
      match d with Some x => exists t, info = Some t /\ entries x <= Z.max 1 t /\ t <> 0 | None => True end
  | inr u => u = UbWild /\ exists a b c t, dec_message_error canon msg = Some (1, Some (EiSuites (SuList [a; b; c]))) /\
      info = Some t /\ 0 < c mod 2 ^ 32 <= t
  end.
Proof.
  intros canon nn msg info. unfold message_error_process.
  destruct (negb nn || (zlen msg =? 0)); [exact I|].
  destruct (dec_message_error canon msg) as [[code ei]|] eqn:D; [|exact I].
  destruct ((code =? EC_SUCCESS) || (code =? EC_UNKNOWN_CRED)); [exact I|].
  destruct (code =? EC_UNSPECIFIED) eqn:C1.
  - destruct ei as [i|]; [|exact I]. destruct info as [t|]; [|exact I].
    destruct (t =? 0) eqn:T0; [exact I|].
    destruct i as [b|[v|l]|]; cbn [as_text].
    + destruct (t <? zlen b) eqn:L; [exact I|]. destruct (zlen b =? 0) eqn:B0.
      * exists t. split; [reflexivity|]. cbn [entries]. rewrite zlen_nil. lia.
      * exists t. split; [reflexivity|]. cbn [entries]. lia.
    + destruct (t <? 0) eqn:L; [exact I|]. exists t. split; [reflexivity|]. cbn [entries Z.eqb]. rewrite zlen_nil. lia.
    + destruct (t <? u32 (nth 2 l 0)) eqn:L; [exact I|]. destruct (u32 (nth 2 l 0) =? 0) eqn:B0.
      * exists t. split; [reflexivity|]. cbn [entries]. rewrite zlen_nil. lia.
      * split; [reflexivity|].
        assert (Q : 2 <= zlen l <= 3).
        { unfold dec_message_error in D. destruct (dec_int32 canon (DS 2 msg)) as [[c0 s1]|]; [|discriminate].
          injection D as _ D. unfold present in D. destruct (dec_err_info canon s1) as [[x s2]|] eqn:X; [|discriminate].
          cbn [fst] in D. injection D as ->. unfold dec_err_info in X.
          destruct (dec_tstr canon s1) as [[? ?]|]; [discriminate|].
          destruct (dec_suites canon s1) as [[u0 s3]|] eqn:Y.
          - inversion X; subst. exact (suites_len _ _ _ _ Y).
          - destruct (expect_true s1); discriminate. }
        assert (code = 1) by (unfold EC_UNSPECIFIED in C1; lia). subst code.
        destruct l as [|a [|b [|c [|? ?]]]]; unfold zlen in Q; cbn [length] in Q; try lia.
        -- cbn in B0. discriminate.
        -- exists a, b, c, t. split; [reflexivity|]. split; [reflexivity|].
           cbn [nth] in *; unfold u32 in *. change (2 ^ 32) with 4294967296 in *.
           pose proof (Z.mod_pos_bound c 4294967296). lia.
    + destruct (t <? 0) eqn:L; [exact I|]. exists t. split; [reflexivity|]. cbn [entries Z.eqb]. rewrite zlen_nil. lia.
  - destruct (code =? EC_WRONG_SUITE); [|exact I]. destruct ei as [i|]; [|exact I].
    destruct info as [t|]; [|exact I]. destruct (t =? 0) eqn:T0; [exact I|].
    destruct (as_suites i) as [v|l].
    + exists t. split; [reflexivity|]. cbn [entries]. rewrite zlen_cons, zlen_nil. lia.
    + destruct (t <? zlen l) eqn:L; [exact I|]. exists t. split; [reflexivity|]. cbn [entries]. lia.
Qed.

(** ** Decoders on RFC encodings *)
Definition idcred_v (i : idcred) : id_cred :=
  match i with
  | KidNum v => IdKid (KidInt v)
  | KidBytes b => IdKid (KidBstr b)
  | X5chain [c] => IdChain (ChOne c)
  | X5chain l => IdChain (ChList l)
  | X5tNum a fp => IdHash (AlgInt a) fp
  | X5tText a fp => IdHash (AlgTstr a) fp
  end.
(** Identifiers within the CDDL: one to three certificates, 32-bit integers. *)
Definition idcred_ok (i : idcred) : Prop :=
  match i with
  | KidNum v => int32 v
  | KidBytes b => zlen b < 2 ^ 64
  | X5chain l => 1 <= zlen l <= 3 /\ Forall (fun c => zlen c < 2 ^ 64) l
  | X5tNum a fp => int32 a /\ zlen fp < 2 ^ 64
  | X5tText a fp => zlen a < 2 ^ 64 /\ zlen fp < 2 ^ 64
  end.
Lemma int_dec : forall canon v ec r, int32 v -> 0 < ec ->
  dec_int32 canon (DS ec (cbor (Num v) ++ r)) = Some (v, DS (ec - 1) r).
Proof. intros. rewrite <- enc_int_rfc. now apply int_rt. Qed.
Lemma bstr_dec : forall canon b ec r, zlen b < 2 ^ 64 -> 0 < ec ->
  dec_bstr canon (DS ec (cbor (Bstr b) ++ r)) = Some (b, DS (ec - 1) r).
Proof. intros. rewrite <- enc_bstr_rfc. now apply bstr_rt. Qed.
Lemma tstr_dec : forall canon b ec r, zlen b < 2 ^ 64 -> 0 < ec ->
  dec_tstr canon (DS ec (cbor (Tstr b) ++ r)) = Some (b, DS (ec - 1) r).
Proof. intros. rewrite <- enc_tstr_rfc. now apply tstr_rt. Qed.
Definition suites_v (l : list Z) : suites := match l with [s] => SuInt s | _ => SuList l end.
Lemma suites_v_ok : forall l, 1 <= zlen l <= 3 -> Forall int32 l -> suites_ok (suites_v l).
Proof.
  intros l H F. destruct l as [|a [|b l]]; unfold zlen in H; cbn [length] in H; try lia; cbn [suites_v suites_ok].
  - now inversion F.
  - split; [unfold zlen; cbn [length]; lia|assumption].
Qed.
Lemma suites_v_list : forall l, suites_list (suites_v l) = l.
Proof. destruct l as [|a [|b l]]; reflexivity. Qed.
Lemma suites_v_enc : forall l, 1 <= zlen l <= 3 -> enc_suites (suites_v l) = Some (cbor (suites_item l)).
Proof.
  intros l H. destruct (enc_suites (suites_v l)) as [b|] eqn:X.
  - rewrite (enc_suites_rfc _ _ X), suites_v_list. reflexivity.
  - exfalso. destruct l as [|a [|b l]]; unfold zlen in H; cbn [length] in H; try lia; [discriminate|].
    cbn [suites_v enc_suites] in X. replace ((2 <=? zlen (a :: b :: l)) && (zlen (a :: b :: l) <=? 3)) with true in X; [discriminate|].
    unfold zlen; cbn [length]; lia.
Qed.
Lemma suites_dec : forall canon l ec r, 1 <= zlen l <= 3 -> Forall int32 l -> 0 < ec ->
  dec_suites canon (DS ec (cbor (suites_item l) ++ r)) = Some (suites_v l, DS (ec - 1) r).
Proof. intros. apply suites_rt; [now apply suites_v_ok|now apply suites_v_enc|assumption]. Qed.
Definition cid_v (c : cid) : cidv := match c with CNum v => CidInt v | CBytes b => CidBstr b end.
Definition cid_ok (c : cid) : Prop := match c with CNum v => -24 <= v <= 23 | CBytes b => zlen b < 2 ^ 64 end.
Lemma cid_v_enc : forall c, cid_ok c -> enc_cidv (cid_v c) = Some (cbor (cid_item c)).
Proof.
  intros [v|b] H; cbn [cid_v enc_cidv cid_item cid_ok] in *.
  - replace ((-24 <=? v) && (v <=? 23)) with true by lia. now rewrite enc_int_rfc.
  - now rewrite enc_bstr_rfc.
Qed.
Lemma cid_dec : forall canon c ec r, cid_ok c -> 0 < ec ->
  dec_cidv canon (DS ec (cbor (cid_item c) ++ r)) = Some (cid_v c, DS (ec - 1) r).
Proof. intros canon c ec r H He. apply cidv_rt; [destruct c; exact H|now apply cid_v_enc|assumption]. Qed.
Lemma idcred_v_ok : forall i, idcred_ok i -> id_ok (idcred_v i).
Proof.
  intros i H. destruct i as [v|b|l|a fp|a fp]; cbn [idcred_v id_ok idcred_ok] in *; try exact H.
  destruct H as [H F]. destruct l as [|a [|b l]]; [unfold zlen in H; cbn in H; lia|now inversion F|].
  split; [unfold zlen in *; cbn [length] in *; lia|exact F].
Qed.
Lemma idcred_of_v : forall i, idcred_of (idcred_v i) = i.
Proof. intros [v|b|l|a fp|a fp]; try reflexivity. destruct l as [|a [|b l]]; reflexivity. Qed.
Lemma idcred_v_enc : forall i, idcred_ok i -> enc_id_cred (idcred_v i) = Some (cbor (idcred_item i)).
Proof.
  intros i H. destruct (enc_id_cred (idcred_v i)) as [b|] eqn:X.
  - rewrite (enc_id_cred_rfc _ _ X), idcred_of_v. reflexivity.
  - exfalso. destruct i as [v|b|l|a fp|a fp]; try discriminate X. destruct H as [H _].
    destruct l as [|a [|b l]]; [unfold zlen in H; cbn in H; lia|discriminate X|].
    cbn [idcred_v enc_id_cred enc_chainv] in X.
    replace ((2 <=? zlen (a :: b :: l)) && (zlen (a :: b :: l) <=? 3)) with true in X; [discriminate|].
    unfold zlen in *; cbn [length] in *; lia.
Qed.
Lemma idcred_dec : forall canon i ec r, idcred_ok i -> 0 < ec ->
  dec_idv canon (DS ec (cbor (idcred_item i) ++ r)) = Some (IvMap (cmap_of (idcred_v i)), DS (ec - 1) r).
Proof. intros. apply idv_map_rt; [now apply idcred_v_ok|now apply idcred_v_enc|assumption]. Qed.

Lemma ead_dec : forall canon l v ec r, int32 l -> zlen v < 2 ^ 64 -> 1 < ec ->
  dec_ead_item canon (DS ec (cbor_seq (ead_items (l, Some v)) ++ r)) =
  Some (TK l (ZS (zlen v) (Some (v ++ r))), DS (ec - 2) r).
Proof.
  intros canon l v ec r Hl Hv He. rewrite <- enc_ead_item_rfc. unfold enc_ead_item, dec_ead_item. cbn [fst snd].
  rewrite <- app_assoc, int_rt by (assumption || lia). unfold enc_bstr. rewrite <- app_assoc.
  rewrite str_p_rt by (assumption || lia). replace (ec - 1 - 1) with (ec - 2) by lia. reflexivity.
Qed.
Lemma ead_dec_none : forall canon l ec r, int32 l -> 1 < ec ->
  match r with [] => True | h :: _ => h / 2 ^ 5 <> 2 end ->
  dec_ead_item canon (DS ec (cbor_seq (ead_items (l, None)) ++ r)) = Some (TK l (ZS 0 None), DS (ec - 1) r).
Proof.
  intros canon l ec r Hl He Hr. rewrite <- enc_ead_item_rfc. unfold enc_ead_item, dec_ead_item. cbn [fst snd].
  rewrite app_nil_r, int_rt by (assumption || lia).
  unfold dec_str_p, next_major. cbn [d_rest]. destruct r as [|h r]; [reflexivity|].
  change (2 ^ 5) with 32 in Hr. replace (h / 32 =? 2) with false by lia. reflexivity.
Qed.
Lemma cid_equal_refl : forall mx a, valid_cid mx a -> connection_id_equal (Some a) (Some a) = true.
Proof. intros. now apply (cid_equal_iff mx). Qed.
Lemma cid_equal_sym : forall a b, connection_id_equal a b = connection_id_equal b a.
Proof.
  intros [a|] [b|]; try reflexivity. cbn [connection_id_equal]. rewrite (Z.eqb_sym (cid_type b)).
  destruct (cid_type a =? cid_type b) eqn:T; [|reflexivity]. cbn [negb]. replace (cid_type b) with (cid_type a) by lia.
  rewrite (Z.eqb_sym (cid_int b)), (Z.eqb_sym (zlen (cid_bstr b))).
  replace (beqb (cid_bstr b) (cid_bstr a)) with (beqb (cid_bstr a) (cid_bstr b)); [reflexivity|].
  destruct (beqb (cid_bstr a) (cid_bstr b)) eqn:X.
  - apply beqb_eq in X. rewrite X. symmetry. now apply beqb_eq.
  - destruct (beqb (cid_bstr b) (cid_bstr a)) eqn:Y; [|reflexivity]. apply beqb_eq in Y. rewrite Y in X.
    rewrite <- X. now apply beqb_eq.
Qed.
Lemma cid_equal_trans : forall mx a b c, valid_cid mx a -> valid_cid mx b -> valid_cid mx c ->
  connection_id_equal (Some a) (Some b) = true -> connection_id_equal (Some b) (Some c) = true ->
  connection_id_equal (Some a) (Some c) = true.
Proof.
  intros mx a b c Ha Hb Hc. rewrite (cid_equal_iff mx) by assumption. rewrite (cid_equal_iff mx) by assumption.
  rewrite (cid_equal_iff mx) by assumption. congruence.
Qed.

Lemma error_compose_ok : forall size code i, 0 <= code <= 3 -> err_valid code i -> 0 < size ->
  zlen (error_message code (if code =? 3 then Some InfoTrue else option_map rfc_info (err_data_of code i))) <= size ->
  exists msg, message_error_compose true size code i = inl (OK, msg).
Proof.
  intros size code i Hc Hv Hs Hf. unfold message_error_compose. cbn [negb orb].
  replace (size =? 0) with false by lia.
  replace ((code <? EC_SUCCESS) || (EC_UNKNOWN_CRED <? code)) with false by (unfold EC_SUCCESS, EC_UNKNOWN_CRED; lia).
  assert (C : code = 0 \/ code = 1 \/ code = 2 \/ code = 3) by lia.
  assert (fin : forall m, zlen m <= size -> fits size m = Some m) by (intros m Hm; unfold fits; now replace (zlen m <=? size) with true by lia).
  destruct C as [->|[->|[->| ->]]].
  - cbn [Z.eqb EC_SUCCESS enc_message_error]. rewrite fin; [eauto|]. exact Hf.
  - cbn [err_valid] in Hv. destruct Hv as (b & t & w & -> & Hw & Hl & Hz).
    change (1 =? EC_SUCCESS) with false. change (1 =? EC_UNKNOWN_CRED) with false. cbv iota zeta.
    unfold err_arg_ok. cbn [ea_ptr ea_total ea_written].
    replace (true && negb (t =? 0) && negb (w =? 0) && (w <=? t)) with true by lia. cbn [negb].
    change (1 =? EC_UNSPECIFIED) with true. cbn [negb]. replace (zlen b <? w) with false by lia.
    destruct (enc_message_error 1 (Some (EiTstr (take w b)))) as [m|] eqn:M; [|discriminate].
    rewrite fin; [eauto|]. rewrite (enc_message_error_rfc _ _ _ M). exact Hf.
  - cbn [err_valid] in Hv. destruct Hv as (l & t & w & -> & Hw & H3 & Hl & Hz).
    change (2 =? EC_SUCCESS) with false. change (2 =? EC_UNKNOWN_CRED) with false. cbv iota zeta.
    unfold err_arg_ok. cbn [ea_ptr ea_total ea_written].
    replace (true && negb (t =? 0) && negb (w =? 0) && (w <=? t)) with true by lia. cbn [negb].
    change (2 =? EC_WRONG_SUITE) with true. cbn [negb]. replace (zlen l <? w) with false by lia.
    replace (3 <? w) with false by lia. cbn [err_data_of option_map rfc_info] in Hf. change (2 =? 3) with false in Hf. cbv iota in Hf.
    assert (L : zlen (take w l) = w) by (apply zlen_take; lia).
    destruct (w =? 1) eqn:W.
    + assert (w = 1) by lia. subst w. destruct l as [|x l]; [cbn in Hl; lia|].
      destruct (enc_message_error 2 (Some (EiSuites (SuInt (nth 0 (x :: l) 0))))) as [m|] eqn:M; [|discriminate].
      rewrite fin; [eauto|]. rewrite (enc_message_error_rfc _ _ _ M). exact Hf.
    + destruct (enc_message_error 2 (Some (EiSuites (SuList (take w l))))) as [m|] eqn:M.
      * rewrite fin; [eauto|]. rewrite (enc_message_error_rfc _ _ _ M). exact Hf.
      * exfalso. cbn [enc_message_error enc_err_info enc_suites] in M. rewrite L in M.
        replace ((2 <=? w) && (w <=? 3)) with true in M by lia. discriminate.
  - cbn [err_valid] in Hv. change (3 =? EC_SUCCESS) with false. change (3 =? EC_UNKNOWN_CRED) with true. cbv iota.
    destruct (enc_message_error 3 (Some EiTrue)) as [m|] eqn:M; [|discriminate].
    rewrite fin; [eauto|]. rewrite (enc_message_error_rfc _ _ _ M). exact Hf.
Qed.
Lemma error_process_safe' : forall canon nn msg info,
  match info with Some t => 0 <= t | None => True end ->
  match message_error_process canon nn msg info with
  | inl (r, EO code d) =>
      match d with Some x => exists t, info = Some t /\ entries x <= t | None => True end
  | inr u => u = UbWild /\ exists a b c t, dec_message_error canon msg = Some (1, Some (EiSuites (SuList [a; b; c]))) /\
      info = Some t /\ 0 < c mod 2 ^ 32 <= t
  end.
Proof.
  intros canon nn msg info Hi. pose proof (error_process_safe canon nn msg info) as P.
  destruct (message_error_process canon nn msg info) as [[r [code d]]|u]; [|exact P].
  destruct d; [|exact I]. destruct P as (t & -> & P & Q). exists t. split; [reflexivity|]. lia.
Qed.
Lemma bstr_estimate : forall b, zlen (cbor (Bstr b)) <= bstr_oh (zlen b) + zlen b <-> zlen b < 2 ^ 16.
Proof. intro b. cbn [cbor]. rewrite zlen_app. pose proof (zlen_nonneg _ b). pose proof (str_size 2 (zlen b)). lia. Qed.
Lemma tstr_estimate : forall b, zlen (cbor (Tstr b)) <= tstr_oh (zlen b) + zlen b <-> zlen b < 2 ^ 16.
Proof. intro b. cbn [cbor]. rewrite zlen_app, tstr_bstr_oh. pose proof (zlen_nonneg _ b). pose proof (str_size 3 (zlen b)). lia. Qed.
Lemma arr_estimate : forall l, zlen (cbor (Arr l)) <= array_oh (zlen l) + zlen (cbor_seq l) <-> zlen l < 2 ^ 16.
Proof. intro l. cbn [cbor]. rewrite zlen_app. pose proof (zlen_nonneg _ l). pose proof (array_size (zlen l)). unfold cbor_seq. lia. Qed.
Lemma map_estimate : forall l, zlen (cbor (Map l)) <=
  map_oh (zlen l) + zlen (flat_map (fun p : item * item => let (k, v) := p in cbor k ++ cbor v) l) <-> zlen l < 2 ^ 16.
Proof. intro l. cbn [cbor]. rewrite zlen_app. pose proof (zlen_nonneg _ l). pose proof (map_size (zlen l)). lia. Qed.
