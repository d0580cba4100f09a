(** What a willing receiver reads of the plaintexts of a willing sender. *)
From Verif Require Import Monad Api Common Msg1 Msg2 Msg3 Rfc Uses Conform Received Sessions Safety
  Facts Logic Sym CborProofs RfcProofs CodecProofs RoundTrip Steps Steps2 Steps3 Claims3 Agree Ready ReadyStep ReadyLib ReadyMac.

Ltac shut := repeat match goal with
  | H : the_suite _ = _ |- _ => clear H
  | H : c_status _ = _ |- _ => clear H
  | H : c_message _ = _ |- _ => clear H
  | H : c_role _ = _ |- _ => clear H
  | H : c_chosen_method _ = _ |- _ => clear H
  | H : c_cid _ = _ |- _ => clear H
  | H : c_ead _ = _ |- _ => clear H
  | H : c_th_state _ = _ |- _ => clear H
  | H : c_th_len _ = _ |- _ => clear H
  | H : th_of _ = _ |- _ => clear H
  | H : c_prk_state _ = _ |- _ => clear H
  | H : c_prk_len _ = _ |- _ => clear H
  | H : prk_of _ = _ |- _ => clear H
  | H : priv_of _ = _ |- _ => clear H
  | H : c_dh_pub_len _ = _ |- _ => clear H
  | H : pub_of _ = _ |- _ => clear H
  | H : peer_of _ = _ |- _ => clear H
  | H : secret_of _ = _ |- _ => clear H
  | H : c_peer_cid _ = _ |- _ => clear H
  | H : c_tokens _ = _ |- _ => clear H
  end.
Ltac reopen H := shut; openv H.
(** EAD tokens. *)
Lemma ead_loop_fits : forall canon l n ec, Forall ead_fits l -> (length l <= n)%nat -> 2 * zlen l <= ec ->
  exists toks ec', multi_loop n (dec_ead_item canon) (DS ec (cbor_seq (flat_map ead_items l))) = (toks, DS ec' []) /\
    map ead_of toks = l /\ Forall tok_fits toks.
Proof.
  induction l as [|e l IH]; intros n ec HF HN HE.
  - exists [], ec. split; [|split; [reflexivity|constructor]]. cbn [flat_map cbor_seq].
    destruct n; [reflexivity|]. cbn [multi_loop]. unfold dec_ead_item, dec_int32, next_major. reflexivity.
  - destruct n as [|n]; [cbn in HN; lia|]. rewrite zlen_cons in HE. pose proof (zlen_nonneg _ l).
    inversion HF as [|? ? [H1 H2] HF']; subst. cbn [flat_map]. unfold cbor_seq. rewrite flat_map_app. fold (cbor_seq (ead_items e)) (cbor_seq (flat_map ead_items l)).
    destruct e as [lab [v|]]; cbn [fst snd] in *.
    + destruct (IH n (ec - 2) HF' ltac:(cbn in HN; lia) ltac:(lia)) as (tk & ec' & A & B & C).
      exists (TK lab (ZS (zlen v) (Some (v ++ cbor_seq (flat_map ead_items l)))) :: tk), ec'.
      cbn [multi_loop]. rewrite ead_dec by (assumption || lia). rewrite A. split; [reflexivity|]. split.
      * cbn [map]. rewrite B. unfold ead_of. cbn [tk_label tk_val zs_ptr zs_len]. now rewrite take_self.
      * constructor; [|exact C]. unfold tok_fits. cbn [tk_val zs_ptr zs_len]. rewrite zlen_app.
        pose proof (zlen_nonneg _ v). pose proof (zlen_nonneg _ (cbor_seq (flat_map ead_items l))). lia.
    + destruct (IH n (ec - 1) HF' ltac:(cbn in HN; lia) ltac:(lia)) as (tk & ec' & A & B & C).
      exists (TK lab (ZS 0 None) :: tk), ec'.
      cbn [multi_loop]. rewrite ead_dec_none.
      * rewrite A. split; [reflexivity|]. split; [|constructor; [reflexivity|exact C]]. cbn [map]. now rewrite B.
      * assumption.
      * lia.
      * destruct l as [|[lab2 v2] l2]; [exact I|]. cbn [flat_map ead_items fst]. unfold cbor_seq. rewrite flat_map_app. cbn [flat_map].
        unfold ead_items at 1. cbn [flat_map fst]. rewrite <- app_assoc. apply num_first. now inversion HF' as [|? ? [? _] _].
Qed.
Lemma ead_rt_fits : forall canon l ec, Forall ead_fits l -> zlen l <= 3 -> 6 <= ec ->
  exists ok toks ec', dec_ead canon (DS ec (cbor_seq (flat_map ead_items l))) = (ok, toks, DS ec' []) /\
    map ead_of toks = l /\ Forall tok_fits toks /\ (ok = true <-> l <> []).
Proof.
  intros canon l ec HF HL HE. destruct (ead_loop_fits canon l 3 ec HF) as (tk & ec' & A & B & C); [unfold zlen in HL; lia|lia|].
  exists (Nat.leb 1 (length tk)), tk, ec'. unfold dec_ead, multi. rewrite A. repeat split; try assumption.
  - intros H Z. subst l. destruct tk; [discriminate|discriminate].
  - intro H. destruct tk; [subst l; now contradiction H|reflexivity].
Qed.
Lemma plaintext_2_fits : forall canon ci i iv sig l,
  cid_ok ci -> id_wire i iv -> zlen sig < 2 ^ 64 -> Forall ead_fits l -> zlen l <= 3 ->
  exists d, dec_plaintext_2 canon (cbor (cid_item ci) ++ cbor i ++ cbor (Bstr sig) ++ cbor_seq (flat_map ead_items l)) = Some d /\
    cid_read (pt_cid d) = ci /\ pt_id d = iv /\ pt_sig d = sig /\ map ead_of (pt_ead d) = l /\ Forall tok_fits (pt_ead d).
Proof.
  intros canon ci i iv sig l Hc Hi Hs Hl1 Hl2. unfold dec_plaintext_2.
  rewrite cid_dec by (assumption || lia). rewrite (idv_rt _ _ _ _ _ Hi) by lia. rewrite bstr_dec by (assumption || lia).
  destruct (ead_rt_fits canon l (9 - 1 - 1 - 1) Hl1 Hl2) as (ok & tk & ec' & A & B & C & D); [lia|]. rewrite A.
  eexists. split; [reflexivity|]. cbn [pt_cid pt_id pt_sig pt_ead]. split; [now destruct ci|]. split; [reflexivity|]. split; [reflexivity|].
  destruct ok; [now split|]. destruct l as [|e l]; [split; [reflexivity|constructor]|]. exfalso. assert (false = true) by now apply D. discriminate.
Qed.
Lemma plaintext_3_fits : forall canon i iv sig l,
  id_wire i iv -> zlen sig < 2 ^ 64 -> Forall ead_fits l -> zlen l <= 3 ->
  exists d, dec_plaintext_3 canon (cbor i ++ cbor (Bstr sig) ++ cbor_seq (flat_map ead_items l)) = Some d /\
    pt_id d = iv /\ pt_sig d = sig /\ map ead_of (pt_ead d) = l /\ Forall tok_fits (pt_ead d).
Proof.
  intros canon i iv sig l Hi Hs Hl1 Hl2. unfold dec_plaintext_3.
  rewrite (idv_rt _ _ _ _ _ Hi) by lia. rewrite bstr_dec by (assumption || lia).
  destruct (ead_rt_fits canon l (8 - 1 - 1) Hl1 Hl2) as (ok & tk & ec' & A & B & C & D); [lia|]. rewrite A.
  eexists. split; [reflexivity|]. cbn [pt_cid pt_id pt_sig pt_ead]. split; [reflexivity|]. split; [reflexivity|].
  destruct ok; [now split|]. destruct l as [|e l]; [split; [reflexivity|constructor]|]. exfalso. assert (false = true) by now apply D. discriminate.
Qed.
Lemma tok_fits_len : forall k, tok_fits k -> zs_len (tk_val k) = match snd (ead_of k) with Some v => zlen v | None => 0 end.
Proof.
  intros k H. unfold tok_fits in H. unfold ead_of. cbn [snd]. destruct (zs_ptr (tk_val k)); [|exact H]. rewrite zlen_take; lia.
Qed.
Lemma good_fits : forall l, goodtoks l -> Forall ead_fits (map ead_of l).
Proof.
  intros l (F & _ & W). revert W. induction F as [|k l H F IH]; intro W; constructor.
  - pose proof (tok_len_pos k H). pose proof (weight_nonneg l F) as W'. unfold ead_weight, zsum in W, W'. cbn [map fold_right] in W.
    split; [destruct H as [_ H]; cbn [ead_of fst]; unfold int32; lia|]. destruct H as [H _]. pose proof (tok_fits_len k H).
    destruct (snd (ead_of k)); [lia|exact I].
  - apply IH. pose proof (tok_len_pos k H). unfold ead_weight, zsum in *. cbn [map fold_right] in W. lia.
Qed.
Lemma same_toks : forall a b, Forall tok_fits a -> goodtoks b -> map ead_of a = map ead_of b -> goodtoks a /\ eads a = eads b.
Proof.
  intros a b FA (FB & LB & WB) E. unfold eads. rewrite E. split; [|reflexivity].
  assert (zlen a = zlen b) as L by (unfold zlen; now rewrite <- (map_length ead_of a), E, map_length).
  assert (Forall goodtok a /\ ead_weight a = ead_weight b) as [G W]; [|repeat split; [exact G|lia|lia]]. clear LB WB L.
  revert b FB E. induction FA as [|k a H FA IH]; intros [|k' b] FB E; try discriminate E; [split; [constructor|reflexivity]|].
  cbn [map] in E. injection E as E1 E2 E3. inversion FB as [|? ? K FB']; subst.
  destruct (IH b FB' E3) as [G W]. assert (ead_of k = ead_of k') as EE by (unfold ead_of; now rewrite E1, E2).
  split.
  - constructor; [|exact G]. split; [exact H|]. rewrite E1. apply K.
  - unfold ead_weight, zsum in *. cbn [map fold_right]. rewrite W, (tok_fits_len k H), EE, <- (tok_fits_len k' (proj1 K)). reflexivity.
Qed.
Lemma eads_nil : forall a b, map ead_of a = map ead_of b -> (zlen a =? 0) = (zlen b =? 0).
Proof. intros a b E. assert (zlen a = zlen b) as -> by (unfold zlen; now rewrite <- (map_length ead_of a), E, map_length). reflexivity. Qed.

(** Identifiers of credentials. *)
Section Ids.
Context {E : env}.
Lemma id_read : forall cr i, travels cr i -> zlen (cbor i) < 2 ^ 64 -> admits i ->
  exists iv cr0, id_wire i iv /\ travels cr0 i /\ forall first w,
    sat HU (parse_id_cred first iv) w (fun y w' => y = (OK, cr0) /\ w' = w).
Proof.
  intros cr i H L (AK & AC & AT).
  assert (KN : forall v, -24 <= v <= 23 -> exists iv cr0, id_wire (Num v) iv /\ travels cr0 (Num v) /\ forall first w,
    sat HU (parse_id_cred first iv) w (fun y w' => y = (OK, cr0) /\ w' = w)).
  { intros v V. exists (IvInt v), (CR [] COSE_KID (CKid [] false ENC_INT v [])). split; [constructor; unfold int32; lia|].
    split; [now constructor|]. intros first w. apply sat_ret; split; reflexivity. }
  assert (KB : forall b, zlen b <= cf_max_kid + 1 -> zlen b < 2 ^ 64 -> exists iv cr0, id_wire (Bstr b) iv /\ travels cr0 (Bstr b) /\ forall first w,
    sat HU (parse_id_cred first iv) w (fun y w' => y = (OK, cr0) /\ w' = w)).
  { intros b B1 B2. exists (IvBstr b), (CR [] COSE_KID (CKid [] false ENC_BSTR 0 b)). split; [now constructor|].
    split; [constructor|]. intros first w. unfold parse_id_cred. apply sat_bind. replace (zlen b <=? cf_max_kid + 1) with true by lia.
    apply sat_ret. apply sat_ret; split; reflexivity. }
  destruct H; try (apply KN; assumption).
  - apply KB; [now apply AK|]. pose proof (bstr_le b). lia.
  - apply KB; [now apply AK|]. pose proof (bstr_le b). lia.
  - exists (IvMap (cmap_of (idcred_v (X5chain certs)))), (CR [] COSE_CHAIN (CChain certs)). split.
    + constructor. split; [assumption|]. apply Forall_forall. intros x Hx. destruct certs as [|y [|z certs]]; [contradiction| |].
      * destruct Hx as [<-|[]]. cbn [idcred_item] in L. pose proof (map_one (Num 33) (Bstr y)). pose proof (bstr_le y). lia.
      * cbn [idcred_item] in L. pose proof (map_one (Num 33) (Arr (map Bstr (y :: z :: certs)))).
        pose proof (cbor_part (map Bstr (y :: z :: certs)) (Bstr x) (in_map Bstr _ _ Hx)). pose proof (bstr_le x). lia.
    + split; [now constructor|]. intros first w. specialize (AC _ eq_refl).
      destruct certs as [|y [|z certs]]; [unfold zlen in H; cbn [length] in H; lia| |].
      * cbn [idcred_v cmap_of parse_id_cred creds_of_chain]. apply sat_ret; split; reflexivity.
      * cbn [idcred_v cmap_of parse_id_cred creds_of_chain]. replace (cf_max_certs <? zlen (y :: z :: certs)) with false by lia. apply sat_ret; split; reflexivity.
  - exists (IvMap (cmap_of (idcred_v (X5tNum a fp)))), (CR [] COSE_HASH (CHash [] fp ENC_INT a [])). split.
    + constructor. split; [exact H|]. cbn [idcred_item] in L. pose proof (map_one (Num 34) (Arr [Num a; Bstr fp])).
      pose proof (cbor_part [Num a; Bstr fp] (Bstr fp) ltac:(right; now left)). pose proof (bstr_le fp). lia.
    + split; [now constructor|]. intros first w. cbn [idcred_v cmap_of parse_id_cred creds_of_x5t]. apply sat_ret; split; reflexivity.
  - exists (IvMap (cmap_of (idcred_v (X5tText a fp)))), (CR [] COSE_HASH (CHash [] fp ENC_BSTR 0 a)). split.
    + constructor. cbn [idcred_item] in L. pose proof (map_one (Num 34) (Arr [Tstr a; Bstr fp])).
      pose proof (cbor_part [Tstr a; Bstr fp] (Bstr fp) ltac:(right; now left)). pose proof (bstr_le fp).
      pose proof (cbor_part [Tstr a; Bstr fp] (Tstr a) ltac:(now left)). pose proof (tstr_le a). split; lia.
    + split; [now constructor|]. intros first w. specialize (AT _ _ eq_refl).
      cbn [idcred_v cmap_of parse_id_cred creds_of_x5t]. replace (cf_max_alg + 1 <? zlen a) with false by lia. apply sat_ret; split; reflexivity.
Qed.
(** The identifier on the wire is no longer than ID_CRED_x. *)
Lemma sent_le : forall cr i, travels cr i -> zlen (cbor i) <= zlen (id_bytes cr).
Proof.
  intros cr i H. destruct H; unfold id_bytes; cbn [cr_body];
    change (ENC_INT =? ENC_INT) with true; change (ENC_BSTR =? ENC_INT) with false; cbv iota; cbn [idcred_item]; try reflexivity.
  - rewrite map_one_eq, !zlen_num1 by lia. lia.
  - rewrite map_one_eq. pose proof (zlen_nonneg _ (cbor (Num 4))). lia.
  - rewrite map_one_eq, (zlen_num1 v), (zlen_num1 4) by lia. pose proof (zlen_nonneg _ (cbor (Num x))). lia.
  - rewrite map_one_eq, (zlen_num1 v), (zlen_num1 4) by lia. pose proof (zlen_nonneg _ (cbor (Bstr x))). lia.
  - subst x. rewrite map_one_eq. pose proof (zlen_nonneg _ (cbor (Num 4))). pose proof (bstr_le (cbor (Bstr b))). lia.
Qed.
End Ids.
