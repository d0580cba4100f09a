(** Decoding what an honest peer wrote: message_1 and the plaintexts. *)
From Verif Require Import Bytes Cbor CborGen Values Monad Common Msg1 Rfc Wire Uses Facts CborProofs RfcProofs CodecProofs WireProofs
  Steps2 Steps3 Run1.

(** EAD items within the ranges of the C types: 32-bit labels. *)
Definition ead_fits (e : ead) : Prop :=
  int32 (fst e) /\ match snd e with Some v => zlen v < 2 ^ 64 | None => True end.

Lemma num_first : forall v r, int32 v -> match cbor (Num v) ++ r with [] => True | h :: _ => h / 2 ^ 5 <> 2 end.
Proof.
  intros v r H. rewrite <- enc_int_rfc. unfold int32 in H.
  assert (G : forall m x, 0 <= x < 2 ^ 64 -> m <> 2 -> match enc_head m x ++ r with [] => True | h :: _ => h / 2 ^ 5 <> 2 end).
  { intros m x Hx Hm. pose proof (head_major 1 m x r Hx) as M. unfold next_major in M. cbn [d_rest] in M.
    destruct (enc_head m x ++ r); [exact I|]. change (2 ^ 5) with 32. injection M as M. now rewrite M. }
  unfold enc_int. destruct (v <? 0) eqn:L; apply G; lia.
Qed.
Lemma take_self : forall A (a b : list A), take (zlen a) (a ++ b) = a.
Proof. intros. apply take_app_exact. reflexivity. Qed.
Lemma ead_loop : forall canon l n ec, Forall ead_fits l -> (length l <= n)%nat -> 2 * zlen l <= ec ->
  exists toks ec', multi_loop n (dec_ead_item canon) (DS ec (cbor_seq (flat_map ead_items l))) = (toks, DS ec' []) /\
    map ead_of toks = l /\ Forall token_in toks.
Proof.
  induction l as [|e l IH]; intros n ec HF HN HE.
  - exists [], ec. split; [|split; [reflexivity|constructor]]. cbn [flat_map cbor_seq].
    destruct n; [reflexivity|]. cbn [multi_loop]. unfold dec_ead_item, dec_int32, next_major. reflexivity.
  - destruct n as [|n]; [cbn in HN; lia|]. rewrite zlen_cons in HE. pose proof (zlen_nonneg _ l).
    inversion HF as [|? ? [H1 H2] HF']; subst. cbn [flat_map]. unfold cbor_seq. rewrite flat_map_app. fold (cbor_seq (ead_items e)) (cbor_seq (flat_map ead_items l)).
    destruct e as [lab [v|]]; cbn [fst snd] in *.
    + destruct (IH n (ec - 2) HF' ltac:(cbn in HN; lia) ltac:(lia)) as (tk & ec' & A & B & C).
      exists (TK lab (ZS (zlen v) (Some (v ++ cbor_seq (flat_map ead_items l)))) :: tk), ec'.
      cbn [multi_loop]. rewrite ead_dec by (assumption || lia). rewrite A. split; [reflexivity|]. split.
      * cbn [map]. rewrite B. unfold ead_of. cbn [tk_label tk_val zs_ptr zs_len]. now rewrite take_self.
      * constructor; [|exact C]. unfold token_in. cbn [tk_val zs_ptr zs_len]. rewrite zlen_app.
        pose proof (zlen_nonneg _ (cbor_seq (flat_map ead_items l))). lia.
    + destruct (IH n (ec - 1) HF' ltac:(cbn in HN; lia) ltac:(lia)) as (tk & ec' & A & B & C).
      exists (TK lab (ZS 0 None) :: tk), ec'.
      cbn [multi_loop]. rewrite ead_dec_none.
      * rewrite A. split; [reflexivity|]. split; [|constructor; [exact I|exact C]]. cbn [map]. now rewrite B.
      * assumption.
      * lia.
      * destruct l as [|[lab2 v2] l2]; [exact I|]. cbn [flat_map ead_items fst]. unfold cbor_seq. rewrite flat_map_app. cbn [flat_map].
        unfold ead_items at 1. cbn [flat_map fst]. rewrite <- app_assoc. apply num_first. now inversion HF' as [|? ? [? _] _].
Qed.
Lemma ead_rt : forall canon l ec, Forall ead_fits l -> zlen l <= 3 -> 6 <= ec ->
  exists ok toks ec', dec_ead canon (DS ec (cbor_seq (flat_map ead_items l))) = (ok, toks, DS ec' []) /\
    map ead_of toks = l /\ Forall token_in toks /\ (ok = true <-> l <> []).
Proof.
  intros canon l ec HF HL HE. destruct (ead_loop canon l 3 ec HF) as (tk & ec' & A & B & C); [unfold zlen in HL; lia|lia|].
  exists (Nat.leb 1 (length tk)), tk, ec'. unfold dec_ead, multi. rewrite A. repeat split; try assumption.
  - intros H Z. subst l. destruct tk; [discriminate|discriminate].
  - intro H. destruct tk; [subst l; now contradiction H|reflexivity].
Qed.

Lemma str_p_dec : forall canon b ec r old, zlen b < 2 ^ 64 -> 0 < ec ->
  dec_str_p canon 2 old (DS ec (cbor (Bstr b) ++ r)) = (true, ZS (zlen b) (Some (b ++ r)), DS (ec - 1) r).
Proof. intros. rewrite <- enc_bstr_rfc. unfold enc_bstr. rewrite <- app_assoc. now apply str_p_rt. Qed.
Lemma num_not_str : forall canon v ec r old, int32 v ->
  dec_str_p canon 2 old (DS ec (cbor (Num v) ++ r)) = (false, old, DS ec (cbor (Num v) ++ r)).
Proof. intros. rewrite <- enc_int_rfc. apply int_not_str; [assumption|lia]. Qed.

(** ** message_1 *)
Lemma message_1_rt : forall canon meth suites gx ci l,
  int32 meth -> 1 <= zlen suites <= 3 -> Forall int32 suites -> zlen gx < 2 ^ 64 -> cid_ok ci ->
  Forall ead_fits l -> zlen l <= 3 ->
  exists d, dec_message_1 canon (cbor_seq (message_1_items meth suites gx ci l)) = (true, d, []) /\
    m1_method d = meth /\ m1_suites d = suites /\
    zs_len (m1_gx d) = zlen gx /\ (exists r, zs_ptr (m1_gx d) = Some (gx ++ r)) /\ m1_cid d = ci /\
    map ead_of (m1_ead d) = l /\ Forall token_in (m1_ead d) /\ (m1_ead_present d = true <-> l <> []).
Proof.
  intros canon meth suites gx ci l Hm Hs1 Hs2 Hg Hc Hl1 Hl2.
  unfold message_1_items, cbor_seq. cbn [app flat_map]. unfold dec_message_1. cbv zeta.
  rewrite int_dec by (assumption || lia).
  rewrite (suites_p_rt canon (suites_v suites) _ _ _ (suites_v_ok _ Hs1 Hs2) (suites_v_enc _ Hs1)) by lia.
  assert (SU : sr_ok (match suites_v suites with SuInt v => SR true 1 [] v | SuList l0 => SR true 0 l0 0 end) = true /\
    forall g c1 c2 c3 c4 c5, m1_suites (DM1 meth (sr_choice (match suites_v suites with SuInt v => SR true 1 [] v | SuList l0 => SR true 0 l0 0 end))
     (sr_list (match suites_v suites with SuInt v => SR true 1 [] v | SuList l0 => SR true 0 l0 0 end))
     (sr_int (match suites_v suites with SuInt v => SR true 1 [] v | SuList l0 => SR true 0 l0 0 end)) g c1 c2 c3 c4 c5) = suites).
  { destruct suites as [|x [|y s]]; [cbn in Hs1; lia|split; reflexivity..]. }
  destruct SU as [SU1 SU2]. rewrite SU1. cbn [negb].
  rewrite str_p_dec by (assumption || lia).
  fold (cbor_seq (flat_map ead_items l)).
  destruct ci as [v|b]; cbn [cid_item cid_ok] in *.
  - rewrite num_not_str by (unfold int32; lia). rewrite int_dec by (unfold int32; lia).
    replace ((-24 <=? v) && (v <=? 23)) with true by lia.
    destruct (ead_rt canon l (10 - 1 - 1 - 1 - 1) Hl1 Hl2) as (ok & tk & ec' & A & B & C & D); [lia|]. rewrite A.
    eexists. split; [reflexivity|]. cbn [m1_method m1_gx m1_ead m1_ead_present zs_len zs_ptr]. repeat split; try assumption; try apply D; try reflexivity.
    + apply SU2.
    + eexists. reflexivity.
  - rewrite str_p_dec by (assumption || lia).
    destruct (ead_rt canon l (10 - 1 - 1 - 1 - 1) Hl1 Hl2) as (ok & tk & ec' & A & B & C & D); [lia|]. rewrite A.
    eexists. split; [reflexivity|]. cbn [m1_method m1_gx m1_ead m1_ead_present zs_len zs_ptr]. repeat split; try assumption; try apply D; try reflexivity.
    + apply SU2.
    + eexists. reflexivity.
    + unfold m1_cid. cbn [m1_ci_choice m1_ci_bstr zs_ptr zs_len]. now rewrite take_self.
Qed.

(** ** Plaintexts *)
(** ID_CRED_x as items a peer may write: compact kid or one-parameter map. *)
Inductive id_wire : item -> idv -> Prop :=
| WiNum v : int32 v -> id_wire (Num v) (IvInt v)
| WiBstr b : zlen b < 2 ^ 64 -> id_wire (Bstr b) (IvBstr b)
| WiMap i : idcred_ok i -> id_wire (idcred_item i) (IvMap (cmap_of (idcred_v i))).
Lemma idv_rt : forall canon i v ec r, id_wire i v -> 0 < ec ->
  dec_idv canon (DS ec (cbor i ++ r)) = Some (v, DS (ec - 1) r).
Proof.
  intros canon i v ec r H He. destruct H.
  - rewrite <- enc_int_rfc. now apply idv_int_rt.
  - rewrite <- enc_bstr_rfc. now apply idv_bstr_rt.
  - now apply idcred_dec.
Qed.
Lemma plaintext_2_rt : forall canon ci i iv sig l,
  cid_ok ci -> id_wire i iv -> zlen sig < 2 ^ 64 -> Forall ead_fits l -> zlen l <= 3 ->
  exists d, dec_plaintext_2 canon (cbor (cid_item ci) ++ cbor i ++ cbor (Bstr sig) ++ cbor_seq (flat_map ead_items l)) = Some d /\
    cid_read (pt_cid d) = ci /\ pt_id d = iv /\ pt_sig d = sig /\ map ead_of (pt_ead d) = l /\ Forall token_in (pt_ead d).
Proof.
  intros canon ci i iv sig l Hc Hi Hs Hl1 Hl2. unfold dec_plaintext_2.
  rewrite cid_dec by (assumption || lia). rewrite (idv_rt _ _ _ _ _ Hi) by lia. rewrite bstr_dec by (assumption || lia).
  destruct (ead_rt canon l (9 - 1 - 1 - 1) Hl1 Hl2) as (ok & tk & ec' & A & B & C & D); [lia|]. rewrite A.
  eexists. split; [reflexivity|]. cbn [pt_cid pt_id pt_sig pt_ead]. split; [now destruct ci|]. split; [reflexivity|]. split; [reflexivity|].
  destruct ok; [now split|]. destruct l as [|e l]; [split; [reflexivity|constructor]|]. exfalso. assert (false = true) by now apply D. discriminate.
Qed.
Lemma plaintext_3_rt : forall canon i iv sig l,
  id_wire i iv -> zlen sig < 2 ^ 64 -> Forall ead_fits l -> zlen l <= 3 ->
  exists d, dec_plaintext_3 canon (cbor i ++ cbor (Bstr sig) ++ cbor_seq (flat_map ead_items l)) = Some d /\
    pt_id d = iv /\ pt_sig d = sig /\ map ead_of (pt_ead d) = l /\ Forall token_in (pt_ead d).
Proof.
  intros canon i iv sig l Hi Hs Hl1 Hl2. unfold dec_plaintext_3.
  rewrite (idv_rt _ _ _ _ _ Hi) by lia. rewrite bstr_dec by (assumption || lia).
  destruct (ead_rt canon l (8 - 1 - 1) Hl1 Hl2) as (ok & tk & ec' & A & B & C & D); [lia|]. rewrite A.
  eexists. split; [reflexivity|]. cbn [pt_cid pt_id pt_sig pt_ead]. split; [reflexivity|]. split; [reflexivity|].
  destruct ok; [now split|]. destruct l as [|e l]; [split; [reflexivity|constructor]|]. exfalso. assert (false = true) by now apply D. discriminate.
Qed.
Lemma plaintext_4_rt : forall canon l, Forall ead_fits l -> zlen l <= 3 ->
  map ead_of (dec_plaintext_4 canon (cbor_seq (flat_map ead_items l))) = l.
Proof.
  intros canon l H1 H2. unfold dec_plaintext_4. destruct (ead_rt canon l 6 H1 H2) as (ok & tk & ec' & A & B & C & D); [lia|]. now rewrite A.
Qed.
