(** Usable credentials, EAD and MAC contexts in a willing environment. *)
From Verif Require Import Monad Api Common Msg1 Msg2 Msg3 Rfc Uses Conform Received Sessions Safety
  Facts Logic Sym CborProofs RfcProofs CodecProofs Steps Steps2 Steps3 Claims3 Agree Ready ReadyStep ReadyLib.

Lemma sat_now : forall U A (m : M A) w a w' (Q : A -> world -> Prop), m w = Ret a w' -> Q a w' -> sat U m w Q.
Proof. intros U A m w a w' Q H HQ. unfold sat. now rewrite H. Qed.

Section Creds.
Context {E : env}.
Definition room_for (n l : Z) : Prop := n <= l <= n + 10.

Lemma zlen_tstr_oh : forall b, zlen b <= 65535 -> zlen (cbor (Tstr b)) = zlen b + bstr_oh (zlen b).
Proof.
  intros b H. pose proof (zlen_nonneg _ b). cbn [cbor]. rewrite zlen_app, (str_size_exact 3) by lia. lia.
Qed.
Lemma zlen_num2 : forall k, 24 <= k <= 255 -> zlen (cbor (Num k)) = 2.
Proof. intros k H. rewrite <- int_size_exact by lia. unfold int_mem_req. now replace ((-24 <=? k) && (k <=? 23)) with false by lia; replace ((-256 <=? k) && (k <=? 255)) with true by lia. Qed.
Lemma zlen_num1 : forall k, -24 <= k <= 23 -> zlen (cbor (Num k)) = 1.
Proof. intros k H. rewrite <- int_size_exact by lia. unfold int_mem_req. now replace ((-24 <=? k) && (k <=? 23)) with true by lia. Qed.
Lemma zlen_arr2 : forall a b, zlen (cbor (Arr [a; b])) = 1 + zlen (cbor a) + zlen (cbor b).
Proof. intros. cbn [cbor flat_map]. fold cbor. rewrite !zlen_app, zlen_head. change (arg_width (zlen [a; b])) with 0. change (zlen (@nil Z)) with 0. lia. Qed.
Lemma certs_size : forall l, zlen (flat_map cbor (map Bstr l)) <= 65535 -> certs_len l = zlen (flat_map cbor (map Bstr l)).
Proof.
  induction l as [|b l IH]; intro H; [reflexivity|]. cbn [map flat_map] in H |- *. unfold certs_len in *. cbn [map zsum fold_right].
  rewrite zlen_app in *. pose proof (zlen_nonneg _ (cbor (Bstr b))). pose proof (zlen_nonneg _ (flat_map cbor (map Bstr l))).
  pose proof (bstr_le b). rewrite zlen_bstr_oh by lia. unfold zsum in *. cbn [fold_right]. rewrite IH by lia. lia.
Qed.
Lemma raw_num : forall x v, -24 <= v <= 23 -> [x] = cbor (Num v) -> 0 <= x <= 255.
Proof.
  intros x v H E0. destruct (small_byte v H) as (y & A & B). rewrite A in E0. injection E0 as ->.
  rewrite <- B. unfold u8. pose proof (Z.mod_pos_bound y 256). lia.
Qed.

Lemma use_id_len : forall cr, usable cr -> zlen (id_bytes cr) <= 2 ^ 15 ->
  exists l, (forall w, comp_id_cred_len cr w = Ret (OK, l) w) /\ room_for (zlen (id_bytes cr)) l.
Proof.
  intros cr (HL & [i HT] & HU) LE. unfold room_for. destruct HT; cbn [cr_body cr_label label_of] in *; subst l;
    unfold id_bytes in *; cbn [cr_body] in *;
    try change (ENC_INT =? ENC_INT) with true in *; try change (ENC_BSTR =? ENC_INT) with false in *; cbv iota in *;
    eexists; (split; [intro w; reflexivity|]).
  - unfold idcred_item in *. rewrite map_one_eq in *. rewrite !zlen_num1 by lia. unfold map_oh. pose proof (imr_le v). lia.
  - unfold idcred_item in *. rewrite map_one_eq in *. rewrite zlen_num1 in * by lia. pose proof (bstr_le b). rewrite zlen_bstr_oh in * by lia. unfold map_oh. lia.
  - unfold idcred_item in *. rewrite map_one_eq in *. rewrite zlen_num1 in * by lia. pose proof (raw_num _ _ H H0).
    rewrite <- int_size_exact in * by lia. unfold map_oh. lia.
  - unfold idcred_item in *. rewrite map_one_eq in *. rewrite zlen_num1 in * by lia. pose proof (bstr_le x). rewrite zlen_bstr_oh in * by lia. unfold map_oh. lia.
  - unfold idcred_item in *. rewrite map_one_eq in *. rewrite zlen_num1 in * by lia. pose proof (bstr_le x). rewrite zlen_bstr_oh in * by lia. unfold map_oh. lia.
  - destruct certs as [|c1 [|c2 cl]]; [unfold zlen in H; cbn [length] in H; lia| |].
    + unfold idcred_item in *. rewrite map_one_eq in *. rewrite zlen_num2 in * by lia. pose proof (bstr_le c1). rewrite zlen_bstr_oh in * by lia.
      change (1 <? zlen [c1]) with false. unfold map_oh, certs_len, zsum. cbn [map fold_right]. lia.
    + set (ll := c1 :: c2 :: cl) in *. assert (1 < zlen ll) as L2 by (unfold ll; rewrite !zlen_cons; pose proof (zlen_nonneg _ cl); lia).
      change (idcred_item (X5chain ll)) with (Map [(Num 33, Arr (map Bstr ll))]) in *.
      rewrite map_one_eq in *. rewrite zlen_num2 in * by lia. replace (1 <? zlen ll) with true by lia.
      assert (zlen (cbor (Arr (map Bstr ll))) = 1 + zlen (flat_map cbor (map Bstr ll))) as HA.
      { change (cbor (Arr (map Bstr ll))) with (head 4 (zlen (map Bstr ll)) ++ flat_map cbor (map Bstr ll)).
        rewrite zlen_app, zlen_head, arg_width_cases, zlen_map. replace (zlen ll <? 24) with true by lia. lia. }
      rewrite certs_size by lia. unfold array_oh. replace (zlen ll <? 24) with true by lia. unfold map_oh. lia.
  - unfold idcred_item in *. rewrite map_one_eq, zlen_arr2 in *. rewrite zlen_num2 in * by lia. specialize (HU eq_refl).
    pose proof (bstr_le fp). pose proof (zlen_nonneg _ (cbor (Num a))). rewrite zlen_bstr_oh in * by lia. rewrite <- int_size_exact in * by lia.
    change (array_oh 1) with 1. unfold map_oh. lia.
  - unfold idcred_item in *. rewrite map_one_eq, zlen_arr2 in *. rewrite zlen_num2 in * by lia.
    pose proof (bstr_le fp). pose proof (tstr_le a). pose proof (zlen_nonneg _ fp). pose proof (zlen_nonneg _ a).
    pose proof (zlen_nonneg _ (cbor (Bstr fp))). pose proof (zlen_nonneg _ (cbor (Tstr a))).
    assert (zlen a <= 65535) by lia. assert (zlen fp <= 65535) by lia. rewrite zlen_bstr_oh, zlen_tstr_oh in * by lia.
    change (array_oh 1) with 1. unfold map_oh. lia.
Qed.
Lemma use_cred_len : forall cr, usable cr -> zlen (cred_bytes_of cr) <= 2 ^ 15 ->
  exists l, (forall w, comp_cred_len cr w = Ret (OK, l) w) /\ room_for (zlen (cred_bytes_of cr)) l /\
    (forall w, cred_bytes cr l w = Ret (Some (cred_bytes_of cr)) w).
Proof.
  intros cr (HL & [i HT] & HU) LE. unfold room_for.
  destruct HT; cbn [cr_body cr_label label_of] in *; subst l; unfold cred_bytes_of in *; cbn [cr_body] in *; cbv iota in *;
    eexists; (split; [intro w; reflexivity|]); cbv beta;
    lazymatch goal with |- context [cbor (Bstr ?b)] => pose proof (bstr_le b); assert (zlen b <= 65535) by lia; rewrite zlen_bstr_oh in * by lia;
                       (split; [lia|]); intro w; rewrite <- enc_bstr_rfc; 
                       transitivity (Ret (fits (zlen b + bstr_oh (zlen b)) (enc_bstr b)) w); [reflexivity|];
                       rewrite fits_ok by (rewrite zlen_enc_bstr; lia); reflexivity
                  | _ => assert (1 <= bstr_oh (zlen cred) <= 3) by (apply bstr_oh_le; lia); split; [lia|reflexivity] end.
Qed.
Lemma use_id : forall cr, usable cr -> exists ic,
  (forall w, id_cred_of cr w = Ret (inr (Some ic)) w) /\ enc_id_cred ic = Some (id_bytes cr).
Proof.
  intros cr (HL & [i HT] & HU). assert (forall ic b, (forall w : world, id_cred_of cr w = Ret (inr (Some ic)) w) -> enc_id_cred ic = Some b ->
    id_bytes cr = cbor (idcred_item (idcred_of ic)) ->
    exists ic, (forall w, id_cred_of cr w = Ret (inr (Some ic)) w) /\ enc_id_cred ic = Some (id_bytes cr)) as X.
  { intros ic b A B C. exists ic. split; [exact A|]. rewrite B, C. f_equal. now apply enc_id_cred_rfc. }
  destruct HT; cbn [cr_body cr_label label_of] in *; subst l;
    try (eapply X; [intro w; reflexivity|reflexivity|reflexivity]).
  destruct certs as [|c1 [|c2 [|c3 [|c4 cl]]]]; [unfold zlen in H; cbn [length] in H; lia| | | |rewrite !zlen_cons in H; pose proof (zlen_nonneg _ cl); lia];
    (eapply X; [intro w; reflexivity|reflexivity|reflexivity]).
Qed.
Ltac run1 := lazymatch goal with
  | |- sat _ (bind _ _) _ _ => apply sat_bind
  | |- sat _ (need (Some _) _) _ _ => apply sat_ret; cbv beta iota
  | |- sat _ (ret _) _ (fun a w => sat _ _ _ _) => apply sat_ret; cbv beta iota
  | |- sat _ (check _ _) _ _ => apply hu_check; [hu|intros _]
  | |- sat _ (let _ := _ in _) _ _ => cbv zeta
  | |- sat _ (if ?b then _ else _) _ _ => first [change b with true | change b with false]; cbv iota
  end.
Lemma one_byte_dec : forall v, -24 <= v <= 23 -> zlen (cbor (Num v)) = 1 /\
  dec_one_int cf_canon (le4 (nth 0 (cbor (Num v)) 0)) = Some v.
Proof.
  intros v H. split; [now apply zlen_num1|].
  pose proof (small_case (fun v => match dec_one_int true (le4 (nth 0 (cbor (Num v)) 0)), dec_one_int false (le4 (nth 0 (cbor (Num v)) 0)) with
    | Some a, Some b => (a =? v) && (b =? v) | _, _ => false end) v eq_refl H) as X. cbv beta in X.
  destruct (dec_one_int true _) as [a|] eqn:A; [|discriminate]. destruct (dec_one_int false _) as [b|] eqn:B; [|discriminate].
  apply andb_true_iff in X as [X Y]. apply Z.eqb_eq in X, Y. subst. destruct cf_canon; assumption.
Qed.
(** A compact identifier is an integer or a byte string. *)
Definition plain (x : bool * (Z * Z * bytes)) : Prop :=
  let '(cmp, (ct, _, _)) := x in cmp = true -> ct = ENC_INT \/ ct = ENC_BSTR.
Ltac pl0 := unfold plain; let PL := fresh in intro PL; first [discriminate PL | now left | now right].
Lemma use_comp : forall cr, usable cr -> exists x, (forall w, sat HU (comp_part cr) w (fun y w' => y = (OK, x) /\ w' = w)) /\ plain x.
Proof.
  intros cr (HL & [i HT] & HU). destruct HT; cbn [cr_body cr_label label_of] in *; subst l; unfold comp_part, kid_compact_encoding; cbn [cr_label cr_body as_kid].
  - eexists. split. { intro w. repeat run1. rewrite fits_ok by (rewrite enc_int_rfc, zlen_num1; lia). repeat run1. now apply sat_ret. } pl0.
  - eexists. split. { intro w. repeat run1. rewrite fits_ok by (rewrite enc_bstr_rfc; now apply HU). repeat run1. now apply sat_ret. } pl0.
  - eexists. split. { intro w. repeat run1. now apply sat_ret. } pl0.
  - destruct (one_byte_dec v H) as [A B]. subst x. eexists. split. { intro w. repeat run1. rewrite A. repeat run1. rewrite B.
    replace (is_one_byte_int v) with true by (unfold is_one_byte_int, int_mem_req; now replace ((-24 <=? v) && (v <=? 23)) with true by lia).
    repeat run1. now apply sat_ret. } pl0.
  - assert (zlen x =? 1 = false) as Z1.
    { destruct (HU eq_refl) as [_ N]. subst x. destruct b as [|y b]; [now contradiction N|]. rewrite zlen_bstr, zlen_head, zlen_cons.
      pose proof (zlen_nonneg _ b). unfold arg_width. repeat match goal with |- context [if ?q then _ else _] => destruct q end; lia. }
    eexists. split. { intro w. repeat run1. rewrite Z1. repeat run1. now apply sat_ret. } pl0.
  - eexists. split. { intro w. repeat run1. now apply sat_ret. } pl0.
  - eexists. split. { intro w. repeat run1. now apply sat_ret. } pl0.
  - eexists. split. { intro w. repeat run1. now apply sat_ret. } pl0.
Qed.

(** EAD tokens. *)
Definition goodtok (k : token) : Prop := tok_fits k /\ -65536 <= tk_label k <= 65535.
Definition goodtoks (l : list token) : Prop := Forall goodtok l /\ zlen l <= 3 /\ ead_weight l <= 2 ^ 15.
Lemma tok_len_pos : forall k, goodtok k -> 0 <= zs_len (tk_val k).
Proof. intros k [H _]. unfold tok_fits in H. destruct (zs_ptr _); lia. Qed.
Lemma weight_nonneg : forall l, Forall goodtok l -> 0 <= ead_weight l.
Proof.
  induction 1 as [|k l H _ IH]; [reflexivity|]. unfold ead_weight, zsum in *. cbn [map fold_right]. pose proof (tok_len_pos k H). lia.
Qed.
Lemma imr3 : forall v, -65536 <= v <= 65535 -> int_mem_req v <= 3.
Proof. intros v H. unfold int_mem_req. repeat match goal with |- context [if ?b then _ else _] => destruct b eqn:? end; lia. Qed.
Lemma ead_len_weight : forall l, Forall goodtok l -> ead_weight l <= 65535 -> ead_len_of l <= ead_weight l.
Proof.
  induction 1 as [|k l H F IH]; [reflexivity|]. unfold ead_weight, ead_len_of, zsum in *. cbn [map fold_right]. intro L.
  pose proof (tok_len_pos k H). pose proof (weight_nonneg l F) as W. unfold ead_weight, zsum in W. specialize (IH ltac:(lia)).
  assert (bstr_oh (zs_len (tk_val k)) <= 3) by (apply bstr_oh_le; lia). pose proof (imr3 _ (proj2 H)). lia.
Qed.
Lemma tok_sizes : forall q l, Forall goodtok l -> ead_weight l <= 65535 -> zsum (map (tok_size q) l) <= ead_len_of l.
Proof.
  intro q. induction 1 as [|k l H F IH]; [reflexivity|]. unfold ead_weight, ead_len_of, zsum in *. cbn [map fold_right]. intro L.
  pose proof (tok_len_pos k H). pose proof (weight_nonneg l F) as W. unfold ead_weight, zsum in W. specialize (IH ltac:(lia)).
  unfold tok_size at 1. rewrite enc_int_rfc, enc_head_rfc, <- int_size_exact, <- (str_size_exact 2) by (try apply (proj2 H); lia).
  assert (1 <= bstr_oh (zs_len (tk_val k))) by (apply bstr_oh_le; lia). destruct (q k); lia.
Qed.
Lemma eads_len : forall l, Forall goodtok l -> ead_weight l <= 65535 -> zlen (eads l) <= ead_len_of l.
Proof.
  induction 1 as [|k l H F IH]; [reflexivity|]. unfold ead_weight, ead_len_of, eads, cbor_seq, zsum in *. cbn [map fold_right flat_map]. intro L.
  pose proof (tok_len_pos k H). pose proof (weight_nonneg l F) as W. unfold ead_weight, zsum in W. specialize (IH ltac:(lia)).
  rewrite flat_map_app, zlen_app. assert (1 <= bstr_oh (zs_len (tk_val k))) by (apply bstr_oh_le; lia).
  assert (zlen (flat_map cbor (ead_items (ead_of k))) <= int_mem_req (tk_label k) + zs_len (tk_val k) + bstr_oh (zs_len (tk_val k))); [|lia].
  destruct H as [K1 K2]. rewrite int_size_exact by assumption. unfold ead_of, ead_items. unfold tok_fits in K1.
  destruct (zs_ptr (tk_val k)) as [b|]; cbn [fst snd flat_map app].
  - rewrite app_nil_r, zlen_app. rewrite zlen_bstr_oh; rewrite zlen_take by lia; lia.
  - rewrite app_nil_r. lia.
Qed.
Lemma hv_read_toks : forall q l w, Forall goodtok l -> sat HU (read_toks q l) w (fun x w' => w' = w /\ zlen x = zlen l).
Proof.
  intros q l w F. revert w. induction F as [|k l H F IH]; intro w; cbn [read_toks]; [now apply sat_ret|].
  apply sat_bind. apply sat_conseq with (P := fun _ w' => w' = w).
  - destruct (q k); [|now apply sat_ret]. apply sat_bind. destruct H as [H _]. unfold tok_fits in H. unfold rd_tok.
    destruct (zs_len (tk_val k) <=? 0) eqn:Z0; [apply sat_ret; now apply sat_ret|].
    destruct (zs_ptr (tk_val k)) as [b|]; [|lia]. apply sat_bind. replace (zs_len (tk_val k) <=? zlen b) with true by lia.
    apply sat_ret. apply sat_ret. now apply sat_ret.
  - intros a w' ->. apply sat_bind. eapply sat_conseq; [apply IH|]. intros x w' [-> L]. apply sat_ret. split; [reflexivity|].
    unfold zlen in *. cbn [length]. lia.
Qed.
Lemma hv_encode_tokens : forall q cap l w, goodtoks l -> zlen l <> 0 -> ead_len_of l <= cap ->
  sat HU (encode_tokens q cap l) w (fun x w' => w' = w /\ exists b, x = Some b).
Proof.
  intros q cap l w (F & L & W) N C. unfold encode_tokens. apply sat_bind, hu_check; [hu|intros _].
  replace (zlen l =? 0) with false by lia. pose proof (tok_sizes q l F). replace (cap <? _) with false by lia.
  apply sat_bind. eapply sat_conseq; [apply hv_read_toks, F|]. intros x w' [-> LX]. apply sat_ret. split; [reflexivity|].
  unfold enc_ead. pose proof (zlen_nonneg _ l). replace ((1 <=? zlen x) && (zlen x <=? 3)) with true by lia. now eexists.
Qed.

(** Connection identifiers. *)
Definition goodcid (i : conn_id) : Prop :=
  (cid_type i = CID_INT /\ -24 <= cid_int i <= 23) \/ (cid_type i = CID_BSTR /\ zlen (cid_bstr i) <= 2 ^ 12).
Definition cid_b (i : conn_id) : bytes := cbor (cid_item (cid_rfc i)).
Lemma cid_parts : forall i, goodcid i -> comp_cid_len i = (OK, zlen (cid_b i)) /\
  (forall n, zlen (cid_b i) <= n -> encode_cid i n = Some (cid_b i)) /\ 1 <= zlen (cid_b i) <= 2 ^ 12 + 3.
Proof.
  intros i H. unfold comp_cid_len, encode_cid, cid_b, cid_rfc. destruct H as [[-> V]|[-> V]].
  - rewrite Z.eqb_refl. cbn [cid_item]. rewrite zlen_num1 by assumption. split; [reflexivity|]. split; [|lia].
    intros n L. rewrite fits_ok, enc_int_rfc; [reflexivity|]. rewrite enc_int_rfc, zlen_num1; assumption.
  - change (CID_BSTR =? CID_INT) with false. change (CID_BSTR =? CID_BSTR) with true. cbv iota. cbn [cid_item].
    pose proof (zlen_nonneg _ (cid_bstr i)). assert (1 <= bstr_oh (zlen (cid_bstr i)) <= 3) by (apply bstr_oh_le; lia).
    rewrite zlen_bstr_oh by lia. split; [reflexivity|]. split; [|lia].
    intros n L. rewrite fits_ok, enc_bstr_rfc; [reflexivity|]. rewrite zlen_enc_bstr; lia.
Qed.
End Creds.

Section MacCtx.
Context {E : env}.
Variables (p : primitives) (valid : bytes -> bytes -> bytes -> Prop) (s : csuite) (me : creds)
  (sk pk : bytes) (peer : creds) (pkp : bytes) (room : Z).
Hypothesis HW : willing p valid s me sk pk peer pkp room.
Hypothesis SZ : sized p s.
Hypothesis MD : modest s.
Lemma z_heap : 0 <= cf_sizeof_mac. Proof. now destruct (wl_heap _ _ _ _ _ _ _ _ _ HW). Qed.
Let z_hash : forall x, zlen (p_hash p (cs_hash s) x) = cs_hash s. Proof. apply SZ. Qed.
Let z_ext : forall x y, zlen (p_extract p x y) = cs_hash s. Proof. apply SZ. Qed.
Let z_exp : forall x i n, 0 < n -> zlen (p_expand p x i n) = n. Proof. apply SZ. Qed.
Let z_pub : forall x, zlen (p_pub p x) = cs_ecc s. Proof. apply SZ. Qed.
Let z_dh : forall x y, zlen (p_dh p x y) = cs_ecc s. Proof. apply SZ. Qed.
Let z_enc : forall k n a x, zlen (p_enc p k n a x) = zlen x + cs_tag s. Proof. apply SZ. Qed.
Ltac md := pose proof z_heap as MDz; pose proof MD as MD'; unfold modest in MD';
  destruct MD' as (MDh & MDm & MDk & MDi & MDe & MDs & MDt & MDx & MDy).
Ltac zl := rewrite ?z_hash, ?z_ext, ?z_pub, ?z_dh, ?z_enc, ?Z.eqb_refl; cbn [negb orb andb].
Section V1.
Variables (st m r meth : Z) (ci : conn_id) (ea : ead_fns) (ts tl : Z) (th : bytes) (ps pl : Z)
  (prk priv : bytes) (publ : Z) (pub pee sec : bytes) (pci : conn_id) (tok : list token).
Local Notation V0 := (VW s st m r meth ci ea ts tl th ps pl prk priv publ pub pee sec pci tok).


Definition the_cid : conn_id := if r =? INITIATOR then pci else ci.
Definition mac_size (cr : creds) : Z :=
  (if m =? MSG_2 then zlen (cid_b the_cid) else 0) + zlen (id_bytes cr) + zlen (cbor (Bstr th)) + zlen (cred_bytes_of cr) + ead_len_of tok.
(** What a MAC context needs. *)
Record macable (cr : creds) : Prop := Mb {
  mb_role : r = INITIATOR \/ r = RESPONDER;
  mb_msg : (m = MSG_2 /\ ts = TH_2) \/ (m = MSG_3 /\ ts = TH_3);
  mb_th : tl = cs_hash s /\ zlen th = tl;
  mb_cid : goodcid the_cid;
  mb_cr : usable cr;
  mb_id : zlen (id_bytes cr) <= 2 ^ 15; mb_cred : zlen (cred_bytes_of cr) <= 2 ^ 15;
  mb_tok : goodtoks tok }.
Lemma mb_role_ok : forall cr c, macable cr -> c_role c = r -> role_ok c = true.
Proof. intros cr c H R. destruct (mb_role _ H) as [K|K]; unfold role_ok; now rewrite R, K. Qed.
Lemma hv_mac_len : forall cr w, view (w_ctx w) = V0 -> macable cr ->
  sat HU (comp_mac_context_length cr) w (fun y w' => w' = w /\ exists ml, y = (OK, ml) /\
    mac_size cr <= ml <= mac_size cr + 20).
Proof.
  md. intros cr [c t] HV MB. cbn [w_ctx] in HV. openv HV. unfold comp_mac_context_length. hys.
  rewrite (mb_role_ok cr _ MB Vr). cbn [negb].
  assert ((m <? MSG_1) || (MSG_3 <? m) = false) as -> by (destruct (mb_msg _ MB) as [[-> _]|[-> _]]; reflexivity).
  destruct (cid_parts _ (mb_cid _ MB)) as (C1 & C2 & C3).
  assert (mac_cid c = the_cid) as CM by (unfold mac_cid, the_cid; now rewrite Vr, Vpc, Vci).
  assert ((if m =? MSG_2 then comp_cid_len (mac_cid c) else (OK, 0)) = (OK, if m =? MSG_2 then zlen (cid_b the_cid) else 0)) as ->
    by (rewrite CM, C1; now destruct (m =? MSG_2)).
  hys. destruct (use_id_len cr (mb_cr _ MB) (mb_id _ MB)) as (l1 & A1 & A2). eapply sat_now; [apply A1|].
  hys. destruct (mb_th _ MB) as [T1 T2]. unfold comp_th_len. replace (tl =? 0) with false by lia. cbv iota.
  hys. destruct (use_cred_len cr (mb_cr _ MB) (mb_cred _ MB)) as (l3 & B1 & B2 & _). eapply sat_now; [apply B1|].
  hys. apply sat_ret. split; [reflexivity|]. eexists. split; [reflexivity|]. unfold mac_size, room_for in *.
  rewrite zlen_bstr_oh, T2 by lia. lia.
Qed.
Lemma hv_mac_ctx : forall cr ml w, view (w_ctx w) = V0 -> macable cr -> mac_size cr <= ml ->
  sat HU (comp_mac_context cr ml) w (fun y w' => w' = w /\ exists mc, y = (OK, mc) /\ mac_post cr (w_ctx w) mc /\ plain (mc_comp mc, (mc_ctype mc, mc_cint mc, mc_cbstr mc))).
Proof.
  md. intros cr ml [c t] HV MB ML.
  assert (sat HU (comp_mac_context cr ml) (Wd c t) (fun y w' => w' = Wd c t /\ fst y = OK /\ plain (mc_comp (snd y), (mc_ctype (snd y), mc_cint (snd y), mc_cbstr (snd y))))) as X.
  2:{ eapply sat_conseq; [apply sat_both; [exact X|apply ok_comp_mac_context]|].
      intros [a mc] w' [(-> & K2 & K4) K3]. cbn [fst snd] in K2, K3, K4. subst a. split; [reflexivity|]. exists mc. split; [reflexivity|]. split; [now apply K3|exact K4]. }
  cbn [w_ctx] in HV. openv HV. unfold comp_mac_context. fold (comp_part cr). hys.
  rewrite (mb_role_ok cr _ MB Vr). cbn [negb].
  assert ((m <? MSG_1) || (MSG_3 <? m) = false) as -> by (destruct (mb_msg _ MB) as [[-> _]|[-> _]]; reflexivity).
  assert ((m =? MSG_2) && negb (ts =? TH_2) = false) as -> by (destruct (mb_msg _ MB) as [[-> ->]|[-> ->]]; reflexivity).
  assert ((m =? MSG_3) && negb (ts =? TH_3) = false) as -> by (destruct (mb_msg _ MB) as [[-> ->]|[-> ->]]; reflexivity).
  destruct (cid_parts _ (mb_cid _ MB)) as (C1 & C2 & C3).
  assert (mac_cid c = the_cid) as CM by (unfold mac_cid, the_cid; now rewrite Vr, Vpc, Vci).
  assert ((if m =? MSG_2 then comp_cid_len (mac_cid c) else (OK, 0)) = (OK, if m =? MSG_2 then zlen (cid_b the_cid) else 0)) as ->
    by (rewrite CM, C1; now destruct (m =? MSG_2)).
  hys.
  assert (exists cb, (if m =? MSG_2 then encode_cid (mac_cid c) (if m =? MSG_2 then zlen (cid_b the_cid) else 0) else Some []) = Some cb /\
    zlen cb = if m =? MSG_2 then zlen (cid_b the_cid) else 0) as (cb & -> & CB).
  { destruct (m =? MSG_2); [|now eexists]. rewrite CM, C2 by lia. now eexists. }
  hys. destruct (use_id_len cr (mb_cr _ MB) (mb_id _ MB)) as (l1 & A1 & A2). eapply sat_now; [apply A1|].
  hys. destruct (use_id cr (mb_cr _ MB)) as (ic & I1 & I2). eapply sat_now; [apply I1|]. cbv beta iota.
  rewrite I2, fits_ok by apply A2. hys.
  destruct (use_comp cr (mb_cr _ MB)) as ([cmp [[ct cin] cbs]] & U1 & U2). eapply sat_conseq; [apply U1|]. intros x w' [-> ->].
  hys. destruct (mb_th _ MB) as [T1 T2]. unfold comp_th_len. replace (tl =? 0) with false by lia. cbv iota. hys.
  rewrite fits_ok by (rewrite zlen_enc_bstr, T2; lia).
  hys. destruct (use_cred_len cr (mb_cr _ MB) (mb_cred _ MB)) as (l3 & B1 & B2 & B3). eapply sat_now; [apply B1|].
  hys. eapply sat_now; [apply B3|]. cbv beta iota. apply sat_bind.
  destruct (mb_tok _ MB) as (F & N3 & W).
  apply sat_conseq with (P := fun x w' => w' = Wd c t /\ exists b, x = Some b /\ zlen b <= ead_len_of tok).
  { destruct (zlen tok =? 0) eqn:Z0; [apply sat_ret; split; [reflexivity|]; exists []; split; [reflexivity|]|].
    - apply Z.eqb_eq, zlen_0 in Z0. rewrite Z0. reflexivity.
    - eapply sat_conseq; [apply sat_both; [apply hv_encode_tokens; [apply MB|lia|reflexivity]|apply ok_encode_tokens]|].
      intros x w' [[-> [b ->]] [_ K]]. split; [reflexivity|]. exists b. split; [reflexivity|]. destruct (K b eq_refl) as [-> _].
      apply eads_len; [assumption|lia]. }
  intros x w' [-> (eb & -> & EB)]. cbv zeta. unfold mac_size in ML.
  match goal with |- context [if ?b then _ else _] => replace b with false end.
  { apply sat_ret. split; [reflexivity|]. split; [reflexivity|exact U2]. }
  unfold mc_buf. cbn [mc_cid mc_id mc_th mc_cred mc_ead]. rewrite !zlen_app, enc_bstr_rfc. lia.
Qed.

(** The values of a MAC context. *)
Definition mac_vals (cr : creds) (mc : macctx) : Prop :=
  mc_cid mc = (if m =? MSG_2 then cid_b the_cid else []) /\ mc_id mc = id_bytes cr /\
  mc_th mc = cbor (Bstr th) /\ mc_cred mc = cred_bytes_of cr /\ mc_ead mc = eads tok /\
  mc_is_ead mc = negb (zlen tok =? 0) /\ id_written mc = id_sent cr.
Lemma mac_post_vals : forall cr c mc, view c = V0 -> mac_post cr c mc -> mac_vals cr mc.
Proof.
  intros cr c mc HV (A & B & C & D & F & G & _ & I & _). openv HV. unfold mac_vals.
  assert (mac_cid c = the_cid) as CM by (unfold mac_cid, the_cid; now rewrite Vr, Vpc, Vci).
  rewrite Vm, CM in A. rewrite Vth in C. rewrite Vtok in F, G. now repeat split.
Qed.
Definition mac_buf (cr : creds) : bytes :=
  (if m =? MSG_2 then cid_b the_cid else []) ++ id_bytes cr ++ external th (cred_bytes_of cr) (eads tok).
Lemma vals_buf : forall cr mc, mac_vals cr mc -> mc_buf mc = mac_buf cr.
Proof. intros cr mc (A & B & C & D & F & _). unfold mc_buf, mac_buf, external. now rewrite A, B, C, D, F. Qed.
Lemma vals_aad : forall cr mc, mac_vals cr mc -> mc_aad mc = external th (cred_bytes_of cr) (eads tok).
Proof. intros cr mc (A & B & C & D & F & _). unfold mc_aad, external. now rewrite C, D, F. Qed.
Lemma buf_size : forall cr, goodtoks tok -> zlen (mac_buf cr) <= mac_size cr.
Proof.
  intros cr (F & N & W). unfold mac_buf, mac_size, external. rewrite !zlen_app. pose proof (eads_len tok F ltac:(lia)).
  destruct (m =? MSG_2); change (zlen (@nil Z)) with 0; lia.
Qed.
Lemma mac_small : forall cr, macable cr -> mac_size cr <= 2 ^ 12 + 2 ^ 15 + 2 ^ 12 + 2 ^ 15 + 2 ^ 15 + 10.
Proof.
  md. intros cr MB. unfold mac_size. destruct (cid_parts _ (mb_cid _ MB)) as (_ & _ & C). destruct (mb_tok _ MB) as (F & _ & W).
  pose proof (ead_len_weight _ F ltac:(lia)). pose proof (mb_id _ MB). pose proof (mb_cred _ MB). destruct (mb_th _ MB) as [T1 T2].
  rewrite zlen_bstr_oh by lia. assert (bstr_oh (zlen th) <= 3) by (apply bstr_oh_le; lia). destruct (m =? MSG_2); lia.
Qed.

(** MAC, signature, verification. *)
Definition stat : bool := if m =? MSG_2 then responder_static meth else initiator_static meth.
Definition msg23 : Prop := (m = MSG_2 \/ m = MSG_3) /\ 0 <= meth <= 3.
Lemma signs_stat : msg23 -> signs m meth = Some (negb stat).
Proof.
  intros [H M]. unfold signs, stat, responder_static, initiator_static.
  assert (meth = 0 \/ meth = 1 \/ meth = 2 \/ meth = 3) as [K|[K|[K|K]]] by lia; rewrite K; destruct H as [K'|K']; rewrite K'; reflexivity.
Qed.
Lemma hv_mac_length : forall w, view (w_ctx w) = V0 -> msg23 -> r = INITIATOR \/ r = RESPONDER ->
  sat HU comp_mac_length w (fun y w' => w' = w /\ y = (OK, mac_length s stat)).
Proof.
  intros [c t] HV M R. cbn [w_ctx] in HV. openv HV. unfold comp_mac_length, mac_length. hys.
  rewrite (roles_ok r c Vr R). cbn [negb]. hys. rewrite (signs_stat M). destruct stat; now apply sat_ret.
Qed.
Definition sig_length : Z := if stat then cs_mac s else cs_sign s.
Lemma hv_sig_length : forall w, view (w_ctx w) = V0 -> msg23 -> r = INITIATOR \/ r = RESPONDER ->
  sat HU comp_sign_or_mac_length w (fun y w' => w' = w /\ y = (OK, sig_length)).
Proof.
  intros [c t] HV M R. cbn [w_ctx] in HV. openv HV. unfold comp_sign_or_mac_length, sig_length. hys.
  rewrite (roles_ok r c Vr R). cbn [negb]. hys. rewrite (signs_stat M). destruct stat; now apply sat_ret.
Qed.
Definition mac_label : Z := if m =? MSG_2 then MAC_2 else MAC_3.
Definition mac_val (cr : creds) : bytes :=
  let n := mac_length s stat in p_expand p prk (info mac_label (mac_buf cr) n) n.
Lemma ml_pos : 0 < mac_length s stat <= 2 ^ 12 /\ mac_length s stat <= 255 * cs_hash s.
Proof. md. unfold mac_length. destruct stat; lia. Qed.
Lemma zlen_mac_val : forall cr, zlen (mac_val cr) = mac_length s stat.
Proof. intro cr. unfold mac_val. cbv zeta. apply z_exp. apply ml_pos. Qed.
Lemma hv_comp_mac : forall cr mc w, view (w_ctx w) = V0 -> (m = MSG_2 /\ ps = PRK_3E2M) \/ (m = MSG_3 /\ ps = PRK_4E3M) ->
  macable cr -> mac_vals cr mc -> zlen (mac_buf cr) <= 65535 ->
  sat HU (comp_mac mc (mac_length s stat)) w (fun y w' => y = (OK, mac_val cr) /\ view (w_ctx w') = V0).
Proof.
  md. intros cr mc [c t] HV MP MB MV SZB. pose proof HV as HV'. cbn [w_ctx] in HV'. openv HV'. unfold comp_mac.
  pose proof ml_pos as [N1 N2]. rewrite (vals_buf cr mc MV). hys.
  assert ((if m =? MSG_2 then L_MAC_2 else if m =? MSG_3 then L_MAC_3 else 0) = mac_label) as -> by (unfold mac_label; destruct MP as [[-> ->]|[-> ->]]; reflexivity).
  assert (-65536 <= mac_label <= 65535) as ML by (unfold mac_label, MAC_2, MAC_3; destruct (m =? MSG_2); lia).
  destruct (info_len mac_label (mac_buf cr) (mac_length s stat) ML SZB) as [I1 I2]; [lia|].
  pose proof (bstr_oh_le _ SZB). pose proof (imr_le mac_label). pose proof (imr_le (i32 (mac_length s stat))).
  hys. rewrite I1, fits_ok by lia.
  assert ((m =? MSG_2) || (m =? MSG_3) = true) as -> by (destruct MP as [[-> ->]|[-> ->]]; reflexivity).
  hys. apply sat_ret. split; [|exact HV]. rewrite blit_zeros_exact by (apply z_exp; lia). reflexivity.
Qed.

Definition sig_in (cr : creds) (mac : bytes) : bytes := sig_structure (id_bytes cr) (external th (cred_bytes_of cr) (eads tok)) mac.
Lemma sig_fits : forall cr mc mac, macable cr -> mac_vals cr mc -> zlen mac <= 65535 -> zlen (mac_buf cr) <= 65535 ->
  fits (cose_len mc (zlen mac)) (enc_sig_structure (mc_id mc) (mc_aad mc) mac) = Some (sig_in cr mac) /\ cose_len mc (zlen mac) <= 2 ^ 19.
Proof.
  intros cr mc mac MB MV LM LB. pose proof MV as (_ & HI & _). pose proof (zlen_nonneg _ mac).
  assert (zlen (mc_id mc) <= 65535 /\ zlen (mc_aad mc) <= 65535) as [L1 L2].
  { rewrite (vals_aad _ _ MV), HI. unfold mac_buf in LB. rewrite !zlen_app in LB.
    pose proof (zlen_nonneg _ (if m =? MSG_2 then cid_b the_cid else [])). pose proof (zlen_nonneg _ (id_bytes cr)).
    pose proof (zlen_nonneg _ (external th (cred_bytes_of cr) (eads tok))). lia. }
  assert (int_mem_req (i32 (zlen mac)) = bstr_oh (zlen mac)) as IB.
  { rewrite i32_id by lia. unfold int_mem_req, bstr_oh. repeat match goal with |- context [if ?b then _ else _] => destruct b eqn:? end; lia. }
  pose proof (bstr_oh_le _ L1). pose proof (bstr_oh_le _ L2). pose proof (bstr_oh_le _ LM).
  split; [|unfold cose_len; rewrite IB; change (tstr_oh 11) with 1; lia].
  rewrite enc_sig_structure_rfc. unfold sig_in. rewrite <- (vals_aad _ _ MV), <- HI. apply fits_ok.
  unfold sig_structure, cose_len. rewrite IB.
  match goal with |- zlen (cbor (Arr ?l)) <= _ => change (cbor (Arr l)) with (head 4 (zlen l) ++ flat_map cbor l) end.
  cbn [flat_map]. rewrite !zlen_app, !zlen_bstr_oh by assumption.
  repeat match goal with |- context [zlen (head 4 ?x)] => let y := eval vm_compute in (zlen (head 4 x)) in change (zlen (head 4 x)) with y end.
  match goal with |- context [zlen (cbor (Tstr ?x))] => let y := eval vm_compute in (zlen (cbor (Tstr x))) in change (zlen (cbor (Tstr x))) with y end.
  change (zlen (@nil Z)) with 0. change (tstr_oh 11) with 1. lia.
Qed.
(** The proof of possession [sg] is the peer's. *)
Definition pop (key : bytes) (cr : creds) (mac sg : bytes) : Prop :=
  if stat then sg = mac else valid key (sig_in cr mac) sg.
Lemma hv_sign : forall mc w, view (w_ctx w) = V0 -> msg23 -> macable me -> mac_vals me mc -> zlen (mac_buf me) <= 65535 ->
  sat HU (comp_sign_or_mac me mc (mac_val me) sig_length) w (fun y w' => view (w_ctx w') = V0 /\
    exists sg, y = (OK, sg) /\ 0 < zlen sg <= sig_length /\ pop pk me (mac_val me) sg).
Proof.
  md. intros mc [c t] HV M MB MV LB. pose proof HV as HV'. cbn [w_ctx] in HV'. openv HV'. unfold comp_sign_or_mac.
  pose proof ml_pos as [N1 N2]. rewrite zlen_mac_val. unfold sig_length, pop.
  replace ((mac_length s stat =? 0) || ((if stat then cs_mac s else cs_sign s) =? 0)) with false by (destruct stat; lia).
  hys. rewrite (signs_stat M). pose proof (zlen_mac_val me) as ZM. unfold mac_length in ZM. destruct stat; cbn [negb].
  - hys. apply sat_ret. split; [exact HV|]. exists (mac_val me). split; [reflexivity|]. split; [lia|reflexivity].
  - unfold sign_cose_sign_1. destruct (sig_fits me mc (mac_val me) MB MV ltac:(lia) LB) as [S1 S2]. hys. rewrite S1. hys.
    eapply hy_sign; [eassumption|lia|]. intros sg L V. hys. apply sat_ret. split; [exact HV|]. exists sg. split; [reflexivity|]. split; assumption.
Qed.
Lemma hv_verify : forall cr mc key sg w, view (w_ctx w) = V0 -> msg23 -> macable cr -> mac_vals cr mc -> zlen (mac_buf cr) <= 65535 ->
  0 < zlen key -> 0 < zlen sg -> pop key cr (mac_val cr) sg ->
  sat HU (verify_sign_or_mac mc key sg (mac_val cr)) w (fun y w' => y = OK /\ view (w_ctx w') = V0).
Proof.
  md. intros cr mc key sg [c t] HV M MB MV LB L1 L2 PP. pose proof HV as HV'. cbn [w_ctx] in HV'. openv HV'. unfold verify_sign_or_mac.
  pose proof ml_pos as [N1 N2]. rewrite zlen_mac_val. unfold pop in PP. pose proof (zlen_mac_val cr) as ZM.
  hys. rewrite (signs_stat M). unfold mac_length in *. destruct stat; cbn [negb].
  - subst sg. rewrite ZM, Z.eqb_refl, beqb_refl. cbn [negb orb]. apply sat_ret. split; [reflexivity|exact HV].
  - unfold verify_cose_sign_1. destruct (sig_fits cr mc (mac_val cr) MB MV ltac:(lia) LB) as [S1 S2]. hys. rewrite S1. hys.
    eapply hy_verify; [eassumption|keyat|exact PP|]. hys. apply sat_ret. split; [reflexivity|exact HV].
Qed.
End V1.
End MacCtx.
