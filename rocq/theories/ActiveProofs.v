(** Lemmas behind the property theorems on sessions under attack.  No code of /repo is modelled here. *)
From Verif Require Import Monad Api Common Msg1 Msg2 Msg3 Msg4 Exporter History Spec Rfc Uses
  Conform Wire Received Facts Logic Sym CborProofs RfcProofs CodecProofs WireProofs Steps Steps2 Steps3 Run2
  Run2p Run1 Run3 Run4 Sessions Fresh RoundTrip Agree Honest Live Peers Claims Claims2 Claims3 NegProofs2 Active.
From Verif Require Once Quiet.

(** ** Well-formed CBOR can be read in one way only *)
Lemma app_same_len : forall A (a b c d : list A), length a = length b -> a ++ c = b ++ d -> a = b /\ c = d.
Proof.
  induction a as [|x a IH]; intros [|y b] c d L H; try discriminate L; [now split|]. injection L as L. cbn [app] in H.
  apply cons_inj in H as [-> H]. destruct (IH _ _ _ L H) as [-> ->]. now split.
Qed.
Lemma head_det : forall M n h M' n' h' r r', is_head M n h -> is_head M' n' h' -> h ++ r = h' ++ r' ->
  M = M' /\ n = n' /\ h = h' /\ r = r'.
Proof.
  intros M n h M' n' h' r r' (a & b & -> & A) (a' & b' & -> & A') H. cbn [app] in H. apply cons_inj in H as [H0 H].
  change (2 ^ 5) with 32 in *.
  destruct A as [(-> & -> & A)|(k & K & -> & L & N)], A' as [(-> & -> & A')|(k' & K' & -> & L' & N')]; try (exfalso; lia).
  - cbn [app] in H. assert (M = M' /\ n = n') as [-> ->] by lia. now repeat split.
  - assert (M = M' /\ k = k') as [-> ->] by lia. assert (E : length b = length b') by (unfold zlen in *; lia).
    destruct (app_same_len _ _ _ _ _ E H) as [-> ->]. subst. now repeat split.
Qed.
Lemma zlen_inj : forall A (a b : list A) c d, zlen a = zlen b -> a ++ c = b ++ d -> a = b /\ c = d.
Proof. intros A a b c d H. apply app_same_len. unfold zlen in H. lia. Qed.
Scheme written_m := Induction for written Sort Prop
with written_seq_m := Induction for written_seq Sort Prop
with written_pairs_m := Induction for written_pairs Sort Prop.
Definition wdet (i : item) (a : bytes) : Prop := forall j b r s, written j b -> a ++ r = b ++ s -> i = j /\ a = b /\ r = s.
Definition sdet (l : list item) (a : bytes) : Prop := forall m b r s, zlen m = zlen l -> written_seq m b -> a ++ r = b ++ s -> l = m /\ a = b /\ r = s.
Definition pdet (l : list (item * item)) (a : bytes) : Prop := forall m b r s, zlen m = zlen l -> written_pairs m b -> a ++ r = b ++ s -> l = m /\ a = b /\ r = s.
Lemma written_det : forall i a, written i a -> wdet i a.
Proof.
  apply (written_m (fun i a _ => wdet i a) (fun l a _ => sdet l a) (fun l a _ => pdet l a)).
  - intros v h H j b r s W X. inversion W as [v' h' H'|x h' H'|x h' H'|x h' y H'|x h' y H']; subst; rewrite <- ?app_assoc in X;
      destruct (head_det _ _ _ _ _ _ _ _ H H' X) as (A & B & C & D);
      [|destruct (v <? 0); discriminate A..]. split; [|now split]. f_equal.
    destruct (v <? 0) eqn:V, (v' <? 0) eqn:V'; try discriminate A; lia.
  - intros x0 h H j b r s W X. rewrite <- app_assoc in X. inversion W as [v' h' H'|x h' H'|x h' H'|x h' y H'|x h' y H']; subst; rewrite <- ?app_assoc in X;
      destruct (head_det _ _ _ _ _ _ _ _ H H' X) as (A & B & C & D); try discriminate A; [destruct (v' <? 0); discriminate A|].
    destruct (zlen_inj _ _ _ _ _ B D) as [-> ->]. now subst.
  - intros x0 h H j b r s W X. rewrite <- app_assoc in X. inversion W as [v' h' H'|x h' H'|x h' H'|x h' y H'|x h' y H']; subst; rewrite <- ?app_assoc in X;
      destruct (head_det _ _ _ _ _ _ _ _ H H' X) as (A & B & C & D); try discriminate A; [destruct (v' <? 0); discriminate A|].
    destruct (zlen_inj _ _ _ _ _ B D) as [-> ->]. now subst.
  - intros l h b0 H WS IH j b r s W X. rewrite <- app_assoc in X. inversion W as [v' h' H'|x h' H'|x h' H'|x h' y H' Y|x h' y H' Y]; subst; rewrite <- ?app_assoc in X;
      destruct (head_det _ _ _ _ _ _ _ _ H H' X) as (A & B & C & D); try discriminate A; [destruct (v' <? 0); discriminate A|].
    destruct (IH _ _ _ _ (eq_sym B) Y D) as (-> & -> & ->). now subst.
  - intros l h b0 H WS IH j b r s W X. rewrite <- app_assoc in X. inversion W as [v' h' H'|x h' H'|x h' H'|x h' y H' Y|x h' y H' Y]; subst; rewrite <- ?app_assoc in X;
      destruct (head_det _ _ _ _ _ _ _ _ H H' X) as (A & B & C & D); try discriminate A; [destruct (v' <? 0); discriminate A|].
    destruct (IH _ _ _ _ (eq_sym B) Y D) as (-> & -> & ->). now subst.
  - intros m b r s L W X. inversion W; subst; [now repeat split|]. rewrite zlen_cons in L. pose proof (zlen_nonneg _ l). change (zlen (@nil item)) with 0 in L. lia.
  - intros i l a b Wi IHi Wl IHl m b' r s L W X. inversion W as [|j l' a2 b2 W1 W2]; subst.
    + rewrite zlen_cons in L. pose proof (zlen_nonneg _ l). change (zlen (@nil item)) with 0 in L. lia.
    + rewrite !zlen_cons in L. rewrite <- !app_assoc in X. destruct (IHi _ _ _ _ W1 X) as (-> & -> & X').
      destruct (IHl l' b2 r s ltac:(lia) W2 X') as (-> & -> & ->). now repeat split.
  - intros m b r s L W X. inversion W; subst; [now repeat split|]. rewrite zlen_cons in L. pose proof (zlen_nonneg _ l). change (zlen (@nil (item * item))) with 0 in L. lia.
  - intros k v l a b c Wk IHk Wv IHv Wl IHl m b' r s L W X. inversion W as [|k2 v2 l' a2 b2 c2 W1 W2 W3]; subst.
    + rewrite zlen_cons in L. pose proof (zlen_nonneg _ l). change (zlen (@nil (item * item))) with 0 in L. lia.
    + rewrite !zlen_cons in L. rewrite <- !app_assoc in X. destruct (IHk _ _ _ _ W1 X) as (-> & -> & X').
      destruct (IHv _ _ _ _ W2 X') as (-> & -> & X''). destruct (IHl l' c2 r s ltac:(lia) W3 X'') as (-> & -> & ->). now repeat split.
Qed.
(** The preferred encoding is well-formed. *)
Lemma head_ok : forall M n, 0 <= n < 2 ^ 64 -> is_head M n (head M n).
Proof.
  intros M n H. unfold head, add_info, arg_width. exists (add_info n), (Rfc.octets (arg_width n) n). unfold add_info, arg_width.
  destruct (n <? 24) eqn:A; [split; [reflexivity|]; left; repeat split; lia|].
  destruct (n <? 2 ^ 8) eqn:B; [|destruct (n <? 2 ^ 16) eqn:C; [|destruct (n <? 2 ^ 32) eqn:D]]; (split; [reflexivity|]; right).
  - exists 0. change 1 with (Z.of_nat 1). rewrite octets_be, <- number_unbe, unbe_be by (change (256 ^ Z.of_nat 1) with (2 ^ 8); lia). repeat split; lia.
  - exists 1. change 2 with (Z.of_nat 2) at 3. rewrite octets_be, <- number_unbe, unbe_be by (change (256 ^ Z.of_nat 2) with (2 ^ 16); lia). repeat split; lia.
  - exists 2. change 4 with (Z.of_nat 4). rewrite octets_be, <- number_unbe, unbe_be by (change (256 ^ Z.of_nat 4) with (2 ^ 32); lia). repeat split; lia.
  - exists 3. change 8 with (Z.of_nat 8). rewrite octets_be, <- number_unbe, unbe_be by (change (256 ^ Z.of_nat 8) with (2 ^ 64); lia). repeat split; lia.
Qed.
Lemma num_written : forall v, - 2 ^ 63 <= v < 2 ^ 63 -> written (Num v) (cbor (Num v)).
Proof. intros v H. constructor. cbn [cbor]. destruct (v <? 0) eqn:V; apply head_ok; lia. Qed.
Lemma bstr_written : forall b, zlen b < 2 ^ 64 -> written (Bstr b) (cbor (Bstr b)).
Proof. intros b H. cbn [cbor]. constructor. apply head_ok. pose proof (zlen_nonneg _ b). lia. Qed.
Lemma tstr_written : forall b, zlen b < 2 ^ 64 -> written (Tstr b) (cbor (Tstr b)).
Proof. intros b H. cbn [cbor]. constructor. apply head_ok. pose proof (zlen_nonneg _ b). lia. Qed.
Lemma cid_written : forall c, cid_ok c -> written (cid_item c) (cbor (cid_item c)).
Proof. intros [v|b] H; cbn [cid_ok cid_item] in *; [apply num_written; lia|now apply bstr_written]. Qed.
Lemma part_le : forall l i, In i l -> zlen (cbor i) <= zlen (flat_map cbor l).
Proof. intros l i H. change (zlen (cbor i) <= zlen (cbor_seq l)). now apply cbor_in. Qed.
Lemma seq_written : forall l, (forall i, In i l -> written i (cbor i)) -> written_seq l (flat_map cbor l).
Proof. induction l as [|i l IH]; intros H; [constructor|]. cbn [flat_map]. constructor; [apply H; now left|]. apply IH. intros j J. apply H. now right. Qed.
Lemma seq_long : forall l, zlen l <= zlen (flat_map cbor l).
Proof.
  induction l as [|i l IH]; [apply Z.le_refl|]. cbn [flat_map]. rewrite zlen_cons, zlen_app. pose proof (cbor_nonempty i).
  destruct (cbor i); [contradiction|]. rewrite zlen_cons. pose proof (zlen_nonneg _ b). lia.
Qed.
Lemma arr_written : forall l, zlen (cbor (Arr l)) < 2 ^ 64 -> (forall i, In i l -> written i (cbor i)) -> written (Arr l) (cbor (Arr l)).
Proof.
  intros l H W. cbn [cbor] in *. rewrite zlen_app in H. pose proof (zlen_nonneg _ (head 4 (zlen l))). pose proof (seq_long l). pose proof (zlen_nonneg _ l).
  constructor; [apply head_ok; lia|now apply seq_written].
Qed.
Lemma map1_written : forall k v, written k (cbor k) -> written v (cbor v) -> written (Map [(k, v)]) (cbor (Map [(k, v)])).
Proof.
  intros k v H1 H2. cbn [cbor flat_map]. constructor; [apply head_ok; change (zlen [(k, v)]) with 1; lia|]. rewrite app_nil_r.
  rewrite <- (app_nil_r (cbor v)) . constructor; [exact H1|exact H2|constructor].
Qed.
Lemma arr_part : forall l i, In i l -> zlen (cbor i) <= zlen (cbor (Arr l)).
Proof. intros l i H. cbn [cbor]. rewrite zlen_app. pose proof (zlen_nonneg _ (head 4 (zlen l))). pose proof (part_le _ _ H). lia. Qed.
Lemma map1_part : forall k v, zlen (cbor v) <= zlen (cbor (Map [(k, v)])).
Proof. intros k v. cbn [cbor flat_map]. rewrite app_nil_r, !zlen_app. pose proof (zlen_nonneg _ (head 5 (zlen [(k, v)]))). pose proof (zlen_nonneg _ (cbor k)). lia. Qed.
Lemma tstr_le : forall b, zlen b <= zlen (cbor (Tstr b)).
Proof. intros b. cbn [cbor]. rewrite zlen_app. pose proof (zlen_nonneg _ (head 3 (zlen b))). lia. Qed.
Lemma travels_written : forall cr i, travels cr i -> zlen (cbor i) < 2 ^ 64 -> written i (cbor i).
Proof.
  intros cr i T L. destruct T as [p l cred kb v R|p l cred ki b|p l cred kb x v R _|p l cred ki x v R _|p l cred ki x b _|p l certs C|p l cert fp a ab R|p l cert fp ai a];
    try (apply num_written; lia); try (apply bstr_written; pose proof (bstr_le b); lia).
  - assert (B : forall y, In y certs -> zlen (cbor (Bstr y)) < 2 ^ 64 -> written (Bstr y) (cbor (Bstr y))) by (intros y _ Y; apply bstr_written; pose proof (bstr_le y); lia).
    destruct certs as [|c [|c' certs]]; [change (zlen (@nil bytes)) with 0 in C; lia| |]; cbn [idcred_item] in *.
    + pose proof (map1_part (Num 33) (Bstr c)). apply map1_written; [apply num_written; lia|]. apply B; [now left|lia].
    + pose proof (map1_part (Num 33) (Arr (map Bstr (c :: c' :: certs)))) as Q. apply map1_written; [apply num_written; lia|].
      apply arr_written; [lia|]. intros i I. pose proof (arr_part _ _ I) as Q2. apply in_map_iff in I as (y & <- & I). apply B; [exact I|lia].
  - cbn [idcred_item] in *. pose proof (map1_part (Num 34) (Arr [Num a; Bstr fp])) as Q. apply map1_written; [apply num_written; lia|].
    apply arr_written; [lia|]. intros i I. pose proof (arr_part _ _ I) as Q2. destruct I as [<-|[<-|[]]]; [apply num_written; lia|].
    apply bstr_written. pose proof (bstr_le fp). lia.
  - cbn [idcred_item] in *. pose proof (map1_part (Num 34) (Arr [Tstr a; Bstr fp])) as Q. apply map1_written; [apply num_written; lia|].
    apply arr_written; [lia|]. intros i I. pose proof (arr_part _ _ I) as Q2. destruct I as [<-|[<-|[]]]; [apply tstr_written; pose proof (tstr_le a); lia|].
    apply bstr_written. pose proof (bstr_le fp). lia.
Qed.

(** ** Signature inputs, infos and additional data determine their parts *)
Lemma bstr_det : forall a b r s, zlen a < 2 ^ 64 -> zlen b < 2 ^ 64 -> cbor (Bstr a) ++ r = cbor (Bstr b) ++ s -> a = b /\ r = s.
Proof.
  intros a b r s A B H. destruct (cbor_unique (Bstr a) (Bstr b) r s A B H) as [E ->]. injection E as ->. now split.
Qed.
Lemma sig_parts : forall i e m, zlen i <= zlen (sig_structure i e m) /\ zlen e <= zlen (sig_structure i e m) /\ zlen m <= zlen (sig_structure i e m).
Proof.
  intros. unfold sig_structure. set (l := [_; _; _; _]).
  assert (H : forall b, In (Bstr b) l -> zlen b <= zlen (cbor (Arr l))) by (intros b I; apply arr_part in I; pose proof (bstr_le b); lia).
  repeat split; apply H; unfold l; cbn; auto.
Qed.
Lemma sig_det : forall i e m i' e' m', zlen (sig_structure i e m) < 2 ^ 64 -> sig_structure i e m = sig_structure i' e' m' -> i = i' /\ e = e' /\ m = m'.
Proof.
  intros i e m i' e' m' L H. pose proof (sig_parts i e m) as (A & B & C). pose proof (sig_parts i' e' m') as (A' & B' & C'). rewrite <- H in A', B', C'.
  assert (S : forall x y z, zlen x < 2 ^ 64 -> zlen y < 2 ^ 64 -> zlen z < 2 ^ 64 -> sane (Arr [Tstr s_Signature1; Bstr x; Bstr y; Bstr z])).
  { intros x y z X Y Z. cbn [sane]. repeat split; try assumption; reflexivity. }
  destruct (cbor_unique (Arr [Tstr s_Signature1; Bstr i; Bstr e; Bstr m]) (Arr [Tstr s_Signature1; Bstr i'; Bstr e'; Bstr m']) [] []) as [E _].
  - apply S; lia.
  - apply S; lia.
  - rewrite !app_nil_r. exact H.
  - injection E as -> -> ->. now repeat split.
Qed.
Lemma aad_le : forall th, zlen th <= zlen (aad th).
Proof. intros. unfold aad, enc_structure. set (l := [_; _; _]). assert (I : In (Bstr th) l) by (unfold l; cbn; auto). apply arr_part in I. pose proof (bstr_le th). lia. Qed.
Lemma aad_det : forall th th', zlen (aad th) < 2 ^ 64 -> aad th = aad th' -> th = th'.
Proof.
  intros th th' L H. pose proof (aad_le th) as A. pose proof (aad_le th') as A'. rewrite <- H in A'.
  destruct (cbor_unique (Arr [Tstr s_Encrypt0; Bstr []; Bstr th]) (Arr [Tstr s_Encrypt0; Bstr []; Bstr th']) [] []) as [E _].
  - cbn [sane]. repeat split; try lia; reflexivity.
  - cbn [sane]. repeat split; try lia; reflexivity.
  - rewrite !app_nil_r. exact H.
  - injection E as ->. reflexivity.
Qed.
Lemma info_le : forall l c n, zlen c <= zlen (info l c n).
Proof. intros. unfold info. apply bstr_in. cbn. auto. Qed.
Lemma info_det : forall l c n l' c' n', 0 <= l < 24 -> 0 <= l' < 24 -> zlen (info l c n) < 2 ^ 64 -> info l c n = info l' c' n' -> l = l' /\ c = c'.
Proof.
  intros l c n l' c' n' B B' L H. pose proof (info_le l c n). pose proof (info_le l' c' n') as Q. rewrite <- H in Q.
  unfold info in H. rewrite !cbor_seq_cons in H.
  destruct (cbor_unique (Num l) (Num l') _ _ ltac:(cbn [sane]; lia) ltac:(cbn [sane]; lia) H) as [E H']. injection E as ->. split; [reflexivity|].
  apply bstr_det in H'; [|lia|lia]. apply H'.
Qed.
Lemma mac_first : forall l c n, (l = MAC_2 \/ l = MAC_3) -> Once.is_mac (info l c n) = true.
Proof. intros l c n [-> | ->]; reflexivity. Qed.
Lemma external_det : forall th c e th' c' e', zlen (external th c e) < 2 ^ 64 -> external th c e = external th' c' e' -> th = th' /\ c ++ e = c' ++ e'.
Proof.
  intros th c e th' c' e' L H. assert (A : forall t x y, zlen t <= zlen (external t x y)).
  { intros. unfold external. rewrite zlen_app. pose proof (bstr_le t). pose proof (zlen_nonneg _ (x ++ y)). lia. }
  pose proof (A th c e). pose proof (A th' c' e') as Q. rewrite <- H in Q. unfold external in H. apply bstr_det in H; [exact H|lia|lia].
Qed.

(** ** What the calls did *)
Section Party.
Context {E : env}.
Definition a_facts (b : trip) (m1 m2 : bytes) (x : run2) (sig : bytes) : Prop :=
  let d := snd (fst (dec_message_1 cf_canon m1)) in
  processed_1 (s0 b) (ev1 b) d (peer_of (s1 b)) (th_of (s1 b)) m1 /\ keeps_1 (s0 b) (s1 b) /\ c_tokens (s1 b) = [] /\
  c_chosen_method (s1 b) = m1_method d /\ cid_rfc (c_peer_cid (s1 b)) = m1_cid d /\
  take (c_peer_csuite_len (s1 b)) (c_peer_csuites (s1 b)) = m1_suites d /\
  composed_2 (s1 b) (ev2 b) x (priv_of (s2 b)) sig m2 /\ after_2 (s1 b) (s2 b) x.
Lemma answer_facts : forall b m1 m2, ready b -> accepts_1 b m1 -> sends_2 b m2 -> zlen m2 < 2 ^ 32 ->
  exists x sig, a_facts b m1 m2 x sig.
Proof.
  intros [c0 c1 c2 c3 e1 e2 e3] m1 m2 [HC HS] (nn & t & H1) (nn2 & n2 & t2 & H2) HM. unfold a_facts. cbv zeta. cbn [s0 s1 s2 s3 ev1 ev2 ev3] in *.
  apply configured_fresh in HC. pose proof (sizes_lens _ HS) as HL. assert (HE : 0 <= cs_ecc (my_suite c0)) by (unfold sizes_ok in HS; tauto).
  pose proof (sat_run _ _ _ _ _ _ _ (run_process_1 nn m1 c0 t HE) H1 eq_refl) as R1.
  destruct R1 as (t' & gx & th & T1 & A1 & A2 & A3 & A4 & A5 & A6 & _ & _ & A7 & _ & A9 & A10). cs in T1. apply app_inv_tail in T1. subst t'.
  cs in A1. cs in A2. cs in A3. cs in A4. cs in A5. cs in A6. cs in A7. cs in A9. cs in A10. subst th gx.
  assert (ES : the_suite c1 = my_suite c0) by (apply A2). rewrite <- ES in HL.
  pose proof (sat_run _ _ _ _ _ _ _ (run_compose_2 nn2 n2 c1 t2 HL) H2 eq_refl HM) as R2'.
  destruct R2' as (t' & x2 & priv & sig & T2 & B1 & B2 & _ & _ & _ & B4 & _). cs in T2. apply app_inv_tail in T2. subst t'.
  cs in B1. cs in B2. cs in B4. subst priv. exists x2, sig. destruct HC as (F1 & F2 & _).
  do 2 (split; [assumption|]). split.
  { rewrite A3, F1. destruct (m1_ead_present _); [|reflexivity]. now destruct (f_process _). }
  do 2 (split; [assumption|]). split; [rewrite A9; now apply A10|]. now split.
Qed.
Definition p_facts (a : trip) (m1 m2 : bytes) (l : list token) (gx : bytes) (x : run2) (d : dpt) (cr0 : creds) (pub : bytes) : Prop :=
  composed_1 (s0 a) (ev1 a) l (priv_of (s1 a)) gx (th_of (s1 a)) m1 /\ keeps_1 (s0 a) (s1 a) /\ c_tokens (s1 a) = [] /\
  c_chosen_method (s1 a) = my_method (s0 a) /\
  processed_2 (s1 a) (ev2 a) x d (c_peer_cid (s2 a)) cr0 pub m2 /\ after_2 (s1 a) (s2 a) x /\ peer_of (s2 a) = r2_gy x.
Lemma start_facts : forall a m1 m2, ready a -> starts a m1 -> accepts_2 a m2 -> is_message m2 ->
  exists l gx x d cr0 pub, p_facts a m1 m2 l gx x d cr0 pub.
Proof.
  intros [c0 c1 c2 c3 e1 e2 e3] m1 m2 [_ HS] (nn & n & t & H1) (nn2 & t2 & H2) [HW HM]. unfold p_facts. cbn [s0 s1 s2 s3 ev1 ev2 ev3] in *.
  pose proof (sizes_lens _ HS) as HL. assert (HE : 0 <= cs_ecc (my_suite c0)) by (unfold sizes_ok in HS; tauto).
  pose proof (sat_run _ _ _ _ _ _ _ (run_compose_1 nn n c0 t) H1 eq_refl) as R1.
  destruct R1 as (t' & l1 & priv & gx & th & T1 & A1 & A2 & A3 & A4 & A5 & A6 & _). cs in T1. apply app_inv_tail in T1. subst t'.
  cs in A1. cs in A2. cs in A3. cs in A4. cs in A5. cs in A6. subst th priv.
  assert (ES : the_suite c1 = my_suite c0) by (apply A2). rewrite <- ES in HL, HE.
  pose proof (sat_run _ _ _ _ _ _ _ (run_process_2 nn2 m2 c1 t2 HL HE HW HM) H2 eq_refl) as R2'.
  destruct R2' as (t' & x2 & d & pc & cr0 & pub & T2 & B1 & B2 & _ & _ & B3 & _ & _ & B6). cs in T2. apply app_inv_tail in T2. subst t'.
  cs in B1. cs in B2. cs in B3. cs in B6. subst pc.
  exists l1, gx, x2, d, cr0, pub. repeat (split; [assumption|]). assumption.
Qed.
(** The suite of the later states. *)
Lemma suite_a : forall b m1 m2 x sig, a_facts b m1 m2 x sig -> ready b -> sizes_ok (the_suite (s1 b)) /\ sizes_ok (the_suite (s2 b)).
Proof. intros b m1 m2 x sig (_ & (K & _) & _ & _ & _ & _ & _ & ((K2 & _) & _)) [_ S]. rewrite K2, K. now split. Qed.
Lemma suite_p : forall a m1 m2 l gx x d cr0 pub, p_facts a m1 m2 l gx x d cr0 pub -> ready a -> sizes_ok (the_suite (s1 a)) /\ sizes_ok (the_suite (s2 a)).
Proof. intros a m1 m2 l gx x d cr0 pub (_ & (K & _) & _ & _ & _ & ((K2 & _) & _) & _) [_ S]. rewrite K2, K. now split. Qed.
End Party.

(** ** The transcript of one party *)
(** Events [T]: TH_1 over [m1], TH_2 over [gy], TH_3 over [p] (PLAINTEXT_2 and CRED_R), which begins with C_R. *)
Definition view (T : list event) (m1 gy th2 : bytes) (ci : cid) (p th3 : bytes) : Prop :=
  exists n h1, hashed T m1 n h1 /\ zlen h1 < 2 ^ 64 /\ hashed T (cbor_seq [Bstr gy; Bstr h1]) n th2 /\ hashed T (cbor (Bstr th2) ++ p) n th3 /\
    zlen (cbor_seq [Bstr gy; Bstr h1]) < 2 ^ 64 /\ zlen (cbor (Bstr th2) ++ p) < 2 ^ 64 /\
    exists c r, p = c ++ r /\ written (cid_item ci) c /\ r <> [].
Definition unlike (T T' : list event) : Prop := forall x n x' n' y, hashed T x n y -> hashed T' x' n' y -> x = x'.
Lemma seq2 : forall a b, cbor_seq [Bstr a; Bstr b] = cbor (Bstr a) ++ cbor (Bstr b).
Proof. intros. rewrite !cbor_seq_cons. change (cbor_seq []) with (@nil Z). now rewrite app_nil_r. Qed.
Lemma first_le : forall a r, zlen (cbor (Bstr a) ++ r) < 2 ^ 64 -> zlen a < 2 ^ 64.
Proof. intros a r H. rewrite zlen_app in H. pose proof (bstr_le a). pose proof (zlen_nonneg _ r). lia. Qed.
Lemma view_th2 : forall T m gy th2 ci p th3 T' m' gy' ci' p' th3',
  view T m gy th2 ci p th3 -> view T' m' gy' th2 ci' p' th3' -> unlike T T' -> m = m' /\ gy = gy'.
Proof.
  intros T m gy th2 ci p th3 T' m' gy' ci' p' th3' (n & h & A1 & A2 & A3 & _ & A5 & _) (n' & h' & B1 & B2 & B3 & _ & B5 & _) U.
  pose proof (U _ _ _ _ _ A3 B3) as Q. rewrite !seq2 in *. apply bstr_det in Q as [-> Q]; [|exact (first_le _ _ A5)|exact (first_le _ _ B5)].
  rewrite <- (app_nil_r (cbor (Bstr h))), <- (app_nil_r (cbor (Bstr h'))) in Q. apply bstr_det in Q as [-> _]; [|assumption..].
  split; [|reflexivity]. exact (U _ _ _ _ _ A1 B1).
Qed.
Lemma view_th3 : forall T m gy th2 ci p th3 T' m' gy' th2' ci' p',
  view T m gy th2 ci p th3 -> view T' m' gy' th2' ci' p' th3 -> unlike T T' -> th2 = th2' /\ p = p' /\ ci = ci'.
Proof.
  intros T m gy th2 ci p th3 T' m' gy' th2' ci' p' (n & h & _ & _ & _ & A4 & _ & A6 & c & r & P1 & P2 & _) (n' & h' & _ & _ & _ & B4 & _ & B6 & c' & r' & Q1 & Q2 & _) U.
  pose proof (U _ _ _ _ _ A4 B4) as Q. apply bstr_det in Q as [-> ->]; [|exact (first_le _ _ A6)|exact (first_le _ _ B6)].
  do 2 (split; [reflexivity|]). rewrite P1 in Q1. destruct (written_det _ _ P2 _ _ _ _ Q2 Q1) as (I & _). destruct ci, ci'; try discriminate I; injection I as ->; reflexivity.
Qed.
(** TH_2 of one session is not TH_3 of another. *)
Lemma view_sep : forall T m gy th2 ci p th3 T' m' gy' th2' ci' p', 
  view T m gy th2 ci p th3 -> view T' m' gy' th2' ci' p' th2 -> unlike T T' -> False.
Proof.
  intros T m gy th2 ci p th3 T' m' gy' th2' ci' p' (n & h & _ & A2 & A3 & _ & A5 & _) (n' & h' & _ & _ & _ & B4 & _ & B6 & c & r & -> & C1 & C2) U.
  pose proof (U _ _ _ _ _ A3 B4) as Q. rewrite seq2 in *. apply bstr_det in Q as [_ Q]; [|exact (first_le _ _ A5)|exact (first_le _ _ B6)].
  rewrite <- (app_nil_r (cbor (Bstr h))) in Q. destruct (written_det _ _ (bstr_written _ A2) _ _ _ _ C1 Q) as (_ & _ & Z). now apply C2.
Qed.
Lemma unlike_sym : forall T T', unlike T T' -> unlike T' T.
Proof. intros T T' U x n x' n' y A B. symmetry. exact (U _ _ _ _ _ B A). Qed.

Definition seen (a : trip) : list event := ev1 a ++ ev2 a.
Lemma seen_1 : forall a x n y, hashed (ev1 a) x n y -> hashed (seen a) x n y.
Proof. intros. unfold seen, hashed. apply in_or_app. now left. Qed.
Lemma seen_2 : forall a x n y, hashed (ev2 a) x n y -> hashed (seen a) x n y.
Proof. intros. unfold seen, hashed. apply in_or_app. now right. Qed.
Section View.
Context {E : env}.
Lemma view_a : forall b m1 m2 x sig, a_facts b m1 m2 x sig -> ready b -> contract (ev1 b) -> contract (ev2 b) ->
  view (seen b) m1 (r2_gy x) (r2_th2 x) (cid_rfc (c_cid (s0 b))) (r2_ptxt x ++ cred_bytes_of (r2_cred x)) (r2_th3 x) /\ th_of (s2 b) = r2_th3 x.
Proof.
  intros b m1 m2 x sig (A & K & _ & _ & _ & _ & B & C) [F [S _]] (F1 & _ & _) (F2 & _ & (M2 & _)).
  apply configured_fresh in F.
  destruct A as (_ & _ & _ & _ & _ & _ & _ & _ & _ & _ & A & AZ & _). destruct B as ((T2 & _ & _ & _ & _ & T3) & _ & _ & _ & _ & _ & P & _).
  destruct K as (K & K2 & _). unfold my_suite in S. rewrite K in *. pose proof (M2 _ _ _ T2) as L2. pose proof (M2 _ _ _ T3) as L3. split.
  - exists (cs_hash (csuite_at (s0 b) (c_csuite_len (s0 b) - 1))), (th_of (s1 b)). split; [now apply seen_1|]. unfold csuite_at in *. split; [lia|].
    split; [now apply seen_2|]. split; [now apply seen_2|]. split; [exact L2|]. split; [exact L3|].
    exists (cbor (cid_item (cid_rfc (c_cid (s0 b))))), (id_sent (r2_cred x) ++ cbor (Bstr sig) ++ eads (r2_ead x) ++ cred_bytes_of (r2_cred x)).
    rewrite K2 in P. rewrite P in L3 |- *. split; [now rewrite <- !app_assoc|]. split.
    + apply cid_written. apply (cid_fits _ _ _ F (Z.le_refl _)). rewrite !zlen_app in L3.
      pose proof (zlen_nonneg _ (cbor (Bstr (r2_th2 x)))). pose proof (zlen_nonneg _ (id_sent (r2_cred x))). pose proof (zlen_nonneg _ (cbor (Bstr sig))).
      pose proof (zlen_nonneg _ (eads (r2_ead x))). pose proof (zlen_nonneg _ (cred_bytes_of (r2_cred x))). lia.
    + intros Z. apply app_eq_nil in Z as [_ Z]. apply app_eq_nil in Z as [Z _]. now apply cbor_nonempty in Z.
  - apply C. rewrite K. destruct F2 as [F2 _]. exact (F2 _ _ _ T3).
Qed.
(** What the initiator read in PLAINTEXT_2. *)
Lemma read_2 : forall a m1 m2 l gx x d cr0 pub, p_facts a m1 m2 l gx x d cr0 pub -> is_message m2 -> octets (ev2 a) ->
  exists b1 b2 b3, r2_ptxt x = b1 ++ b2 ++ b3 /\ written (cid_item (cid_rfc (c_peer_cid (s2 a)))) b1 /\ written (idv_item (pt_id d)) b2 /\
    match cid_rfc (c_peer_cid (s2 a)) with CNum v => -24 <= v <= 23 | CBytes _ => True end.
Proof.
  intros a m1 m2 l gx x d cr0 pub (_ & _ & HT & _ & P & _) M O.
  destruct P as (P1 & P2 & (ct & Q1 & Q2 & _) & P4 & P5 & P6 & P7 & P8 & P9 & P10 & P11 & P12 & P13 & P14).
  destruct (one_bstr_carries _ _ Q1 (proj1 M)) as [_ C2]. apply wf_right in C2.
  pose proof P1 as (_ & _ & _ & _ & K & _). pose proof (expanded_wf _ _ _ _ _ O K) as WK.
  assert (WP : wf_bytes (r2_ptxt x)) by (rewrite Q2; now apply xor_wf).
  assert (ST : r2_ead x = pt_ead d) by (rewrite P9, HT; unfold stored; now destruct (pt_ead d)).
  assert (TI : Forall token_in (pt_ead d)) by (rewrite <- ST; apply P14).
  destruct (plaintext_2_sound _ _ _ P4 WP TI) as (b1 & b2 & b3 & b4 & rest & E1 & E2 & E2' & E3 & E4 & E5).
  exists b1, b2, (b3 ++ b4 ++ rest). split; [exact E1|]. split; [rewrite P5; destruct (pt_cid d); exact E2|]. split; [exact E3|]. rewrite P5. now destruct (pt_cid d).
Qed.
Lemma view_p : forall a m1 m2 l gx x d cr0 pub, p_facts a m1 m2 l gx x d cr0 pub -> ready a -> is_message m2 -> contract (ev1 a) -> contract (ev2 a) ->
  view (seen a) m1 (r2_gy x) (r2_th2 x) (cid_rfc (c_peer_cid (s2 a))) (r2_ptxt x ++ cred_bytes_of (r2_cred x)) (r2_th3 x) /\ th_of (s2 a) = r2_th3 x.
Proof.
  intros a m1 m2 l gx x d cr0 pub A [_ [S _]] M (F1 & _ & _) (F2 & O & (M2 & _)). destruct (read_2 _ _ _ _ _ _ _ _ _ A M O) as (b1 & b2 & b3 & R1 & R2 & R3 & _).
  destruct A as (A & K & _ & _ & B & C & _). destruct A as (_ & _ & _ & A & _). destruct B as ((T2 & _ & _ & _ & _ & T3) & _).
  destruct K as (K & _). unfold my_suite in S. rewrite K in *. pose proof (M2 _ _ _ T2) as L2. pose proof (M2 _ _ _ T3) as L3. split.
  - exists (cs_hash (csuite_at (s0 a) (c_csuite_len (s0 a) - 1))), (th_of (s1 a)). split; [now apply seen_1|].
    destruct F1 as [F1 _]. specialize (F1 _ _ _ A). unfold csuite_at in *. split; [lia|].
    split; [now apply seen_2|]. split; [now apply seen_2|]. split; [exact L2|]. split; [exact L3|].
    exists b1, (b2 ++ b3 ++ cred_bytes_of (r2_cred x)). split; [rewrite R1; now rewrite <- !app_assoc|]. split; [exact R2|].
    intros Z. apply app_eq_nil in Z as [Z _]. now apply written_some in R3.
  - apply C. rewrite K. destruct F2 as [F2 _]. exact (F2 _ _ _ T3).
Qed.
End View.

(** ** What follows *)
Lemma starts_agree : forall (EI ER : env) a b m1 m2 m2' l gx x d cr0 pub x' sig,
  @p_facts EI a m1 m2 l gx x d cr0 pub -> @a_facts ER b m1 m2' x' sig -> @ready EI a -> is_message m1 -> typed (s0 a) (ev1 a) ->
  same_start a b.
Proof.
  intros EI ER a b m1 m2 m2' l gx x d cr0 pub x' sig (A & _) (B1 & _ & _ & B4 & B5 & B6 & _) [F _] [_ M] TY.
  apply configured_fresh in F as (F1 & _ & _ & _ & _ & _ & _ & _ & F2 & _).
  destruct (message_1_read _ _ _ _ _ _ _ A TY F1 M (@cf_canon ER)) as (d1 & D & D1 & D2 & D3 & (r & D4) & D5 & _). rewrite D in *. cbn [fst snd] in *.
  destruct B1 as (_ & _ & N & L & Z1 & Z2 & G & _). rewrite (suite_values_take _ F2) in D2. unfold same_start.
  split; [congruence|]. split; [congruence|]. split.
  { change (my_suite (s0 b)) with (csuite_at (s0 b) (c_csuite_len (s0 b) - 1)). rewrite <- L, D2. rewrite last_take; [reflexivity|]. destruct A as (_ & _ & _ & _ & _ & A & _). lia. }
  split; [congruence|]. destruct A as (A & _). replace (peer_of (s1 b)) with gx; [exact A|].
  rewrite D3 in Z2. pose proof (zlen_nonneg _ gx) as NN. destruct (Z.eq_dec (zlen gx) 0) as [Q|Q].
  - assert (zlen (peer_of (s1 b)) = 0) by lia. unfold zlen in *. destruct gx, (peer_of (s1 b)); cbn [length] in *; try reflexivity; lia.
  - destruct G as (r' & R1 & _ & R2); [lia|]. rewrite D4 in R1. injection R1 as <-. rewrite R2, <- Z2. unfold take, zlen. rewrite Nat2Z.id, firstn_app, Nat.sub_diag, firstn_all.
    cbn [firstn]. now rewrite app_nil_r.
Qed.
Lemma collide_2 : forall T q x n y, no_collision T q -> hashed (seen (se q)) x n y -> forall x' n', hashed T x' n' y -> x' = x.
Proof. intros T q x n y U H x' n' H'. apply (U _ n' _ n _ H'). unfold seen, hashed in *. apply in_app_or in H. apply in_or_app. destruct H; [now left|right; apply in_or_app; now left]. Qed.
Lemma unlike_q : forall T a q, no_collision T q -> (forall x, In x (seen a) -> In x T) -> unlike (seen a) (seen (se q)).
Proof. intros T a q U H x n x' n' y A B. refine (collide_2 _ _ _ _ _ U B _ _ (H _ A)). Qed.
Lemma key_in : forall t e kid kt key, with_key t e kid kt key -> In e t.
Proof. intros t e kid kt key (a & b & -> & _). apply in_or_app. right. now left. Qed.

(** The inputs of the signature and the MAC of an honest session. *)
Section Inputs.
Context {E : env}.
Lemma no_sign : forall e kid i s, filter (Once.of_kind Once.KSign) e = [] -> signed e kid i s -> False.
Proof. intros e kid i s H G. assert (Q : In (EvSign kid i OK s) (filter (Once.of_kind Once.KSign) e)) by (apply filter_In; now split). now rewrite H in Q. Qed.
Lemma answer_signs : forall b m1 m2 x sig kid i s, a_facts b m1 m2 x sig -> sends_2 b m2 -> signed (ev2 b) kid i s ->
  i = sig_input (r2_th2 x) (r2_cred x) (r2_ead x) (r2_mac x).
Proof.
  intros b m1 m2 x sig kid i s (_ & _ & _ & _ & _ & _ & A & _) (nn & n & t & H) G. destruct A as (_ & _ & _ & _ & _ & A & _ & _ & _ & RM & _). unfold proves in A.
  destruct (responder_static _) eqn:R.
  - exfalso. refine (no_sign _ _ _ _ (Once.compose_2_n _ _ _ _ _ _ _ H _) G). unfold Common.signs, responder_static in *. rewrite Z.eqb_refl.
    assert (Q : (c_chosen_method (s1 b) =? 0) || (c_chosen_method (s1 b) =? 2) = false) by lia. rewrite Q, R. discriminate.
  - pose proof (Once.upto_one Once.KSign _ _ _ _ _ _ _ _ (Once.compose_2_u Once.KSign nn n) H eq_refl G A eq_refl eq_refl) as Q. now injection Q.
Qed.
Lemma answer_macs : forall b m1 m2 x sig prk label c len n o, a_facts b m1 m2 x sig -> sends_2 b m2 -> expanded (ev2 b) prk (info label c len) n o ->
  label = MAC_2 \/ label = MAC_3 -> exists len', 
  info label c len = info MAC_2 (context_2 (cid_rfc (c_cid (s1 b))) (id_bytes (r2_cred x)) (r2_th2 x) (cred_bytes_of (r2_cred x)) (eads (r2_ead x))) len'.
Proof.
  intros b m1 m2 x sig prk label c len n o (_ & _ & _ & _ & _ & _ & A & _) (nn & k & t & H) (kid & o' & G & _) LB. apply key_in in G.
  destruct A as ((_ & _ & _ & (kid' & o2 & A & _) & _) & _). apply key_in in A. eexists.
  pose proof (Once.upto_one Once.KMac _ _ _ _ _ _ _ _ (Once.compose_2_u Once.KMac nn k) H eq_refl G A (mac_first _ _ _ LB) (mac_first _ _ _ (or_introl eq_refl))) as Q.
  injection Q as _ Q _ _. exact Q.
Qed.
Lemma confirm_3 : forall a m3, sends_3 a m3 -> sizes_ok (the_suite (s2 a)) -> exists x sig ct, composed_3 (s2 a) (ev3 a) x sig ct m3 /\ after_3 (s2 a) (s3 a) x.
Proof.
  intros a m3 (nn & n & t & H) S. destruct (call_compose_3 _ _ _ _ _ _ _ H S) as (e & x & sig & ct & T & A & B). apply app_inv_tail in T. subst e. eauto.
Qed.
Lemma confirm_signs : forall a m3 x sig ct kid i s, composed_3 (s2 a) (ev3 a) x sig ct m3 -> sends_3 a m3 -> signed (ev3 a) kid i s ->
  i = sig_input (th_of (s2 a)) (r3_cred x) (r3_ead x) (r3_mac x).
Proof.
  intros a m3 x sig ct kid i s A (nn & n & t & H) G. destruct A as (_ & _ & _ & A & _ & _ & _ & RM & _). unfold proves in A. 
  destruct (initiator_static _) eqn:R.
  - exfalso. refine (no_sign _ _ _ _ (Once.compose_3_n _ _ _ _ _ _ _ H _) G). unfold Common.signs, initiator_static in *.
    change (MSG_3 =? MSG_2) with false. rewrite Z.eqb_refl. cbv iota.
    assert (Q : (c_chosen_method (s2 a) =? 0) || (c_chosen_method (s2 a) =? 1) = false) by lia. rewrite Q, R. discriminate.
  - pose proof (Once.upto_one Once.KSign _ _ _ _ _ _ _ _ (Once.compose_3_u Once.KSign nn n) H eq_refl G A eq_refl eq_refl) as Q. now injection Q.
Qed.
Lemma confirm_macs : forall a m3 x sig ct prk label c len n o, composed_3 (s2 a) (ev3 a) x sig ct m3 -> sends_3 a m3 -> expanded (ev3 a) prk (info label c len) n o ->
  label = MAC_2 \/ label = MAC_3 -> exists len', 
  info label c len = info MAC_3 (context_3 (id_bytes (r3_cred x)) (th_of (s2 a)) (cred_bytes_of (r3_cred x)) (eads (r3_ead x))) len'.
Proof.
  intros a m3 x sig ct prk label c len n o A (nn & k & t & H) (kid & o' & G & _) LB. apply key_in in G.
  destruct A as ((_ & _ & _ & (kid' & o2 & A & _) & _) & _). apply key_in in A. eexists.
  pose proof (Once.upto_one Once.KMac _ _ _ _ _ _ _ _ (Once.compose_3_u Once.KMac nn k) H eq_refl G A (mac_first _ _ _ LB) (mac_first _ _ _ (or_intror eq_refl))) as Q.
  injection Q as _ Q _ _. exact Q.
Qed.
Lemma confirm_seals : forall a m3 x sig ct k n ad p y, composed_3 (s2 a) (ev3 a) x sig ct m3 -> sends_3 a m3 -> encrypted (ev3 a) k n ad p y ->
  ad = aad (th_of (s2 a)) /\ p = r3_ptxt x.
Proof.
  intros a m3 x sig ct k n ad p y A (nn & j & t & H) (kid & G). destruct A as (_ & _ & _ & _ & _ & (kid' & A) & _). apply key_in in G. apply key_in in A.
  pose proof (Once.upto_one Once.KSeal _ _ _ _ _ _ _ _ (Once.compose_3_u Once.KSeal nn j) H eq_refl G A eq_refl eq_refl) as Q. injection Q as _ _ Q1 Q2 _. now split.
Qed.
Lemma close_seals : forall b e m4 k n ad p y, sends_4 b e m4 -> sizes_ok (the_suite (s3 b)) -> encrypted e k n ad p y ->
  ad = aad (th_of (s3 b)) /\ exists l, composed e MSG_4 (c_tokens (s3 b)) l /\ eads_in l /\ p = eads l.
Proof.
  intros b e m4 k n ad p y (nn & j & t & c & H) S (kid & G). apply key_in in G. destruct (call_compose_4 _ _ _ _ _ _ _ H S) as (e' & l & key & iv & ct & T & _ & B & C & (kid' & A) & _).
  apply app_inv_tail in T. subst e'. apply key_in in A.
  pose proof (Once.upto_one Once.KSeal _ _ _ _ _ _ _ _ (Once.compose_4_u Once.KSeal nn j) H eq_refl G A eq_refl eq_refl) as Q. injection Q as _ _ Q1 Q2 _. split; [exact Q1|].
  exists l. split; [exact B|]. split; [exact C|exact Q2].
Qed.
End Inputs.

(** ** C66 *)
Lemma incl_seen : forall a x, In x (seen a) -> In x (ev1 a ++ ev2 a). Proof. intros a x H. exact H. Qed.
Lemma ext_le : forall id e m, zlen e <= zlen (sig_structure id e m). Proof. intros. apply sig_parts. Qed.
Lemma opened_facts : forall (E : env) a m1 m2, opened a m1 m2 -> exists l gx x d cr0 pub, p_facts a m1 m2 l gx x d cr0 pub /\
  view (seen a) m1 (r2_gy x) (r2_th2 x) (cid_rfc (c_peer_cid (s2 a))) (r2_ptxt x ++ cred_bytes_of (r2_cred x)) (th_of (s2 a)) /\
  th_of (s2 a) = r2_th3 x /\ sizes_ok (the_suite (s1 a)) /\ sizes_ok (the_suite (s2 a)).
Proof.
  intros E a m1 m2 (R & S & A & M1 & M2 & TY & C1 & C2). destruct (start_facts _ _ _ R S A M2) as (l & gx & x & d & cr0 & pub & F).
  exists l, gx, x, d, cr0, pub. split; [exact F|]. destruct (view_p _ _ _ _ _ _ _ _ _ F R M2 C1 C2) as [V T]. split; [rewrite T; exact V|]. split; [exact T|].
  exact (suite_p _ _ _ _ _ _ _ _ _ F R).
Qed.
Lemma answered_facts : forall (E : env) b m1 m2, answered b m1 m2 -> exists x sig, a_facts b m1 m2 x sig /\
  view (seen b) m1 (r2_gy x) (r2_th2 x) (cid_rfc (c_cid (s0 b))) (r2_ptxt x ++ cred_bytes_of (r2_cred x)) (th_of (s2 b)) /\
  th_of (s2 b) = r2_th3 x /\ sizes_ok (the_suite (s1 b)) /\ sizes_ok (the_suite (s2 b)).
Proof.
  intros E b m1 m2 (R & A & S & M & C1 & C2). destruct (answer_facts _ _ _ R A S M) as (x & sig & F).
  exists x, sig. split; [exact F|]. destruct (view_a _ _ _ _ _ F R C1 C2) as [V T]. split; [rewrite T; exact V|]. split; [exact T|].
  exact (suite_a _ _ _ _ _ F R).
Qed.
(** Same TH_2: same message 1 and ephemeral keys. *)
Lemma same_th2 : forall (EI ER : env) a b m1 m2 m1' m2' l gx x d cr0 pub x' sig V V',
  @opened EI a m1 m2 -> @answered ER b m1' m2' -> @p_facts EI a m1 m2 l gx x d cr0 pub -> @a_facts ER b m1' m2' x' sig ->
  V = view (seen a) m1 (r2_gy x) (r2_th2 x) (cid_rfc (c_peer_cid (s2 a))) (r2_ptxt x ++ cred_bytes_of (r2_cred x)) (th_of (s2 a)) ->
  V' = view (seen b) m1' (r2_gy x') (r2_th2 x') (cid_rfc (c_cid (s0 b))) (r2_ptxt x' ++ cred_bytes_of (r2_cred x')) (th_of (s2 b)) ->
  V -> V' -> unlike (seen a) (seen b) -> r2_th2 x = r2_th2 x' -> m1' = m1 /\ same_start a b /\ same_answer a b.
Proof.
  intros EI ER a b m1 m2 m1' m2' l gx x d cr0 pub x' sig V V' OA OB FA FB -> -> VA VB U T. rewrite T in VA. destruct (view_th2 _ _ _ _ _ _ _ _ _ _ _ _ _ VA VB U) as [<- G].
  split; [reflexivity|]. destruct OA as (R & _ & _ & M1 & _ & TY & _). split; [exact (starts_agree _ _ _ _ _ _ _ _ _ _ _ _ _ _ _ FA FB R M1 TY)|].
  unfold same_answer. destruct FA as (_ & _ & _ & _ & _ & _ & ->). rewrite G. destruct FB as (_ & _ & _ & _ & _ & _ & (_ & FB & _) & _). exact FB.
Qed.
Lemma composed_nil : forall c t msg l, c_tokens c = [] -> composed t msg (c_tokens c) l -> composed t msg [] l.
Proof. intros c t msg l ->. exact (fun H => H). Qed.
Lemma cid_item_ok : forall c r, match c with CNum v => -24 <= v <= 23 | CBytes _ => True end -> zlen (cbor (cid_item c) ++ r) < 2 ^ 64 -> cid_ok c.
Proof. intros [v|b] r H L; [exact H|]. exact (first_le _ _ L). Qed.
Lemma context_cid : forall c b th k e c' b' th' k' e', zlen (context_2 c b th k e) < 2 ^ 64 ->
  match c with CNum v => -24 <= v <= 23 | CBytes _ => True end -> match c' with CNum v => -24 <= v <= 23 | CBytes _ => True end ->
  context_2 c b th k e = context_2 c' b' th' k' e' -> c = c'.
Proof.
  intros c b th k e c' b' th' k' e' L H H' Q. pose proof (cid_item_ok _ _ H L) as K. pose proof L as L'. rewrite Q in L'. pose proof (cid_item_ok _ _ H' L') as K'.
  unfold context_2 in *. destruct (written_det _ _ (cid_written _ K) _ _ _ _ (cid_written _ K') Q) as (I & _). destruct c, c'; try discriminate I; injection I as ->; reflexivity.
Qed.
Lemma cid_small : forall (E : env) b, ready b -> match cid_rfc (c_cid (s0 b)) with CNum v => -24 <= v <= 23 | CBytes _ => True end.
Proof.
  intros E b [F _]. apply configured_fresh in F. destruct F as (_ & _ & _ & _ & _ & _ & _ & _ & _ & F). unfold cid_rfc. destruct (cid_type _ =? CID_INT) eqn:T; [|exact I].
  destruct F as [[_ F]|[F _]]; [exact F|]. rewrite F in T. discriminate.
Qed.
Lemma responder_signed : forall (E : env) a m1 m2 (owner : bytes -> session -> Prop),
  opened a m1 m2 -> responder_static (my_method (s0 a)) = false ->
  no_forged_signature owner (ev2 a) -> (forall pub q, owner pub q -> no_collision (ev1 a ++ ev2 a) q) ->
  exists pub q, owner pub q /\ answers q /\ se_m1 q = m1 /\ same_start a (se q) /\ same_answer a (se q) /\
    same_credential MSG_2 (ev2 (se q)) (ev2 a) pub /\ (no_mac_collision MAC_2 (ev2 a) q -> same_responder_id a (se q)).
Proof.
  intros E a m1 m2 owner O ST NF NC. destruct (opened_facts _ _ _ _ O) as (l & gx & x & d & cr0 & pub & FA & VA & TA & SA1 & SA2).
  pose proof FA as (_ & _ & _ & CM & P & _). destruct P as ((_ & _ & _ & PM & _) & _ & _ & _ & _ & _ & _ & PV & _ & PH & PC & _). cbv zeta in PM. rewrite CM, ST in PC. unfold checks in PC.
  destruct (NF _ _ _ PC) as (q & OW & Q). pose proof (NC _ _ OW) as U. exists pub, q. split; [exact OW|].
  assert (LX : zlen (sig_input (r2_th2 x) (r2_cred x) (r2_ead x) (r2_mac x)) < 2 ^ 64).
  { destruct O as (_ & _ & _ & _ & _ & _ & _ & (_ & _ & (_ & _ & LV & _))). destruct PC as (kid & PC). exact (LV _ _ _ (key_in _ _ _ _ _ PC)). }
  pose proof (ext_le (id_bytes (r2_cred x)) (external (r2_th2 x) (cred_bytes_of (r2_cred x)) (eads (r2_ead x))) (r2_mac x)) as LE. unfold sig_input in LX.
  pose proof (unlike_q _ a _ U (incl_seen a)) as UN.
  destruct Q as [[AQ (kid & s & Q)]|[AQ (kid & s & Q)]].
  - split; [exact AQ|]. destruct (answered_facts _ _ _ _ AQ) as (x' & sig & FB & VB & TB & _).
    pose proof AQ as (_ & _ & S2 & _). pose proof (answer_signs _ _ _ _ _ _ _ _ FB S2 Q) as I. unfold sig_input in I.
    apply sig_det in I as (I1 & I2 & I3); [|exact LX]. apply external_det in I2 as [I2 I4]; [|lia].
    destruct (same_th2 _ _ _ _ _ _ _ _ _ _ _ _ _ _ _ _ _ _ O AQ FA FB eq_refl eq_refl VA VB UN I2) as (M & SS & SA).
    split; [exact M|]. split; [exact SS|]. split; [exact SA|].
    destruct FB as (_ & (_ & K & _) & TK & _ & _ & _ & ((_ & _ & _ & BM & _) & _ & _ & FB1 & FB2 & _) & _). cbv zeta in BM. split.
    { exists (r2_cred x'), cr0, (r2_cred x), (r2_ead x'), (r2_ead x).
      repeat (split; [assumption|]). split; [exact (composed_nil _ _ _ _ TK FB2)|]. split; [exact (proj2 PH)|]. split; assumption. }
    intros NM. rewrite <- I3 in BM. pose proof (NM _ _ _ _ _ _ _ _ _ PM BM) as CX. rewrite K in CX.
    pose proof O as (_ & _ & _ & _ & M2 & _ & _ & (_ & O2 & (_ & _ & _ & LI & _))). destruct (read_2 _ _ _ _ _ _ _ _ _ FA M2 O2) as (_ & _ & _ & _ & _ & _ & CA).
    destruct AQ as (RB & _). refine (context_cid _ _ _ _ _ _ _ _ _ _ _ CA (cid_small _ _ RB) CX).
    destruct PM as (kk & oo & PM & _). pose proof (LI _ _ _ _ (key_in _ _ _ _ _ PM)) as LL. refine (Z.le_lt_trans _ _ _ (info_le _ _ _) LL).
  - exfalso. destruct AQ as (AQ & S3 & _). destruct (opened_facts _ _ _ _ AQ) as (l' & gx' & x' & d' & cr0' & pub' & FB & VB & TB & _ & SB).
    destruct (confirm_3 _ _ S3 SB) as (x3 & sig & ct & C3 & _). pose proof (confirm_signs _ _ _ _ _ _ _ _ C3 S3 Q) as I. unfold sig_input in I.
    apply sig_det in I as (_ & I2 & _); [|exact LX]. apply external_det in I2 as [I2 _]; [|lia]. rewrite <- I2 in VB.
    exact (view_sep _ _ _ _ _ _ _ _ _ _ _ _ _ VA VB UN).
Qed.
Lemma context_det : forall c i b th k e c' i' b' th' k' e', written i b -> written i' b' -> zlen (context_2 c b th k e) < 2 ^ 64 ->
  match c with CNum v => -24 <= v <= 23 | CBytes _ => True end -> match c' with CNum v => -24 <= v <= 23 | CBytes _ => True end ->
  context_2 c b th k e = context_2 c' b' th' k' e' -> c = c' /\ b = b' /\ th = th' /\ k ++ e = k' ++ e'.
Proof.
  intros c i b th k e c' i' b' th' k' e' W W' L H H' Q. pose proof (cid_item_ok _ _ H L) as K. pose proof L as L'. rewrite Q in L'. pose proof (cid_item_ok _ _ H' L') as K'.
  unfold context_2 in *. destruct (written_det _ _ (cid_written _ K) _ _ _ _ (cid_written _ K') Q) as (I & _ & X).
  split; [destruct c, c'; try discriminate I; injection I as ->; reflexivity|].
  destruct (written_det _ _ W _ _ _ _ W' X) as (_ & -> & Y). split; [reflexivity|]. apply external_det in Y; [exact Y|].
  rewrite !zlen_app in L. pose proof (zlen_nonneg _ (cbor (cid_item c))). pose proof (zlen_nonneg _ b'). lia.
Qed.
Lemma responder_maced : forall (E : env) a m1 m2 (owner : bytes -> session -> Prop),
  opened a m1 m2 -> responder_static (my_method (s0 a)) = true -> plain_ids (ev2 a) ->
  no_forged_mac owner MAC_2 (ev2 a) ->
  (forall pub q, owner pub q -> no_collision (ev1 a ++ ev2 a) q /\ plain_ids (ev2 (se q))) ->
  exists pub q, owner pub q /\ answers q /\ se_m1 q = m1 /\ same_start a (se q) /\ same_answer a (se q) /\
    same_responder_id a (se q) /\ same_credential MSG_2 (ev2 (se q)) (ev2 a) pub.
Proof.
  intros E a m1 m2 owner O ST PI NF NC. destruct (opened_facts _ _ _ _ O) as (l & gx & x & d & cr0 & pub & FA & VA & TA & SA1 & SA2).
  pose proof FA as (_ & _ & _ & CM & P & _). destruct P as ((_ & _ & _ & PM & _) & _ & _ & _ & _ & _ & _ & PV & _ & PH & _). cbv zeta in PM.
  destruct (NF _ _ _ _ _ _ _ _ PV PM) as (q & OW & Q). destruct (NC _ _ OW) as [U PQ]. exists pub, q. split; [exact OW|].
  match type of Q with has_maced _ (info _ _ ?n) => assert (LX : zlen (info MAC_2 (context_2 (cid_rfc (c_peer_cid (s2 a))) (id_bytes (r2_cred x)) (r2_th2 x) (cred_bytes_of (r2_cred x)) (eads (r2_ead x))) n) < 2 ^ 64) end.
  { destruct O as (_ & _ & _ & _ & _ & _ & _ & (_ & _ & (_ & _ & _ & LE & _))). destruct PM as (kid & o & PM & _). exact (LE _ _ _ _ (key_in _ _ _ _ _ PM)). }
  match type of LX with zlen (info MAC_2 ?c ?n) < _ => pose proof (info_le MAC_2 c n) as LC end.
  pose proof (unlike_q _ a _ U (incl_seen a)) as UN.
  destruct Q as [[AQ (prk & n & o & Q)]|[AQ (prk & n & o & Q)]].
  - split; [exact AQ|]. destruct (answered_facts _ _ _ _ AQ) as (x' & sig & FB & VB & TB & SB).
    pose proof AQ as (RB & _ & S2 & _). destruct (answer_macs _ _ _ _ _ _ _ _ _ _ _ FB S2 Q (or_introl eq_refl)) as (len' & I).
    apply info_det in I as (_ & I); [|unfold MAC_2; lia|unfold MAC_2; lia|exact LX].
    assert (K : c_cid (s1 (se q)) = c_cid (s0 (se q))) by (destruct FB as (_ & (_ & K & _) & _); exact K). rewrite K in I.
    pose proof O as (_ & _ & _ & _ & M2 & _ & _ & (_ & O2 & _)). destruct (read_2 _ _ _ _ _ _ _ _ _ FA M2 O2) as (_ & _ & _ & _ & _ & _ & CA).
    pose proof FB as (_ & _ & TK & _ & _ & _ & (_ & _ & _ & FB1 & FB2 & _) & _).
    destruct (proj2 PI _ _ _ PV) as (i1 & W1). destruct (proj1 PQ _ FB1) as (i2 & W2).
    destruct (context_det _ _ _ _ _ _ _ _ _ _ _ _ W1 W2 (Z.le_lt_trans _ _ _ LC LX) CA (cid_small _ _ RB) I) as (I1 & I2 & I3 & I4).
    destruct (same_th2 _ _ _ _ _ _ _ _ _ _ _ _ _ _ _ _ _ _ O AQ FA FB eq_refl eq_refl VA VB UN I3) as (M & SS & SA).
    split; [exact M|]. split; [exact SS|]. split; [exact SA|]. split; [exact I1|].
    exists (r2_cred x'), cr0, (r2_cred x), (r2_ead x'), (r2_ead x).
    repeat (split; [assumption|]). split; [exact (composed_nil _ _ _ _ TK FB2)|]. split; [exact (proj2 PH)|]. split; assumption.
  - exfalso. destruct AQ as (AQ & S3 & _). destruct (opened_facts _ _ _ _ AQ) as (l' & gx' & x' & d' & cr0' & pub' & FB & VB & TB & _ & SB).
    destruct (confirm_3 _ _ S3 SB) as (x3 & sig & ct & C3 & _). destruct (confirm_macs _ _ _ _ _ _ _ _ _ _ _ C3 S3 Q (or_introl eq_refl)) as (len' & I).
    apply info_det in I as (I & _); [discriminate I|unfold MAC_2; lia|unfold MAC_3; lia|exact LX].
Qed.

(** ** C67 *)
(** Same TH_3: everything up to message 2. *)
Lemma same_th3 : forall (EI ER : env) a b m1 m2 m1' m2', @opened EI a m1 m2 -> @answered ER b m1' m2' -> unlike (seen a) (seen b) ->
  th_of (s2 a) = th_of (s2 b) -> m1' = m1 /\ same_session a b.
Proof.
  intros EI ER a b m1 m2 m1' m2' OA OB U T. destruct (opened_facts _ _ _ _ OA) as (l & gx & x & d & cr0 & pub & FA & VA & TA & _).
  destruct (answered_facts _ _ _ _ OB) as (x' & sig & FB & VB & TB & _). pose proof VA as VA'. rewrite T in VA'. destruct (view_th3 _ _ _ _ _ _ _ _ _ _ _ _ _ VA' VB U) as (Q1 & Q2 & Q3).
  destruct (same_th2 _ _ _ _ _ _ _ _ _ _ _ _ _ _ _ _ _ _ OA OB FA FB eq_refl eq_refl VA VB U Q1) as (M & SS & SA).
  split; [exact M|]. split; [exact SS|]. split; [exact SA|]. split; [exact Q3|].
  intros cr i cr1 r cr' pub' HF HT HV. pose proof OA as (_ & _ & (nn & t & IA) & _ & M2 & _ & _ & (_ & O2 & _)). pose proof OB as (RB & _ & (nn' & n' & t' & IB) & _ & _ & (_ & _ & (LB & _))).
  pose proof (once_call Quiet.KVerify _ _ _ _ _ _ _ (@Quiet.m2_process_u EI Quiet.KVerify nn m2) IA) as OV.
  pose proof (once_call Quiet.KFetch _ _ _ _ _ _ _ (@Quiet.m2_compose_u ER Quiet.KFetch nn' n') IB) as OF.
  pose proof FA as (_ & _ & _ & _ & P & _). destruct P as (_ & _ & _ & P4 & _ & _ & P7 & P8 & _). destruct FB as (_ & (_ & K & _) & _ & _ & _ & _ & Q & _). destruct Q as ((_ & _ & _ & _ & _ & H3) & _ & _ & Q4 & _ & _ & Q7 & _).
  pose proof (once_same _ _ _ _ OF HF Q4 eq_refl eq_refl) as EF. injection EF as EF. rewrite <- EF in Q7, Q2, H3.
  pose proof (once_same _ _ _ _ OV HV P8 eq_refl eq_refl) as EV. injection EV as EV _ _ _. subst cr1.
  rewrite K, (@travels_sent ER _ _ HT) in Q7. rewrite Q7 in Q2, H3. pose proof (LB _ _ _ H3) as L. rewrite !zlen_app in L.
  pose proof (zlen_nonneg _ (cbor i)). pose proof (zlen_nonneg _ (cbor (Bstr sig))). pose proof (zlen_nonneg _ (eads (r2_ead x'))). pose proof (zlen_nonneg _ (cred_bytes_of cr)).
  pose proof (zlen_nonneg _ (cbor (cid_item (cid_rfc (c_cid (s0 b)))))). pose proof (zlen_nonneg _ (cbor (Bstr (r2_th2 x')))).
  assert (CO : cid_ok (cid_rfc (c_cid (s0 b)))) by (apply (cid_item_ok _ [] (cid_small _ _ RB)); rewrite app_nil_r; lia).
  destruct (read_2 _ _ _ _ _ _ _ _ _ FA M2 O2) as (b1 & b2 & b3 & R1 & R2 & R3 & _). rewrite R1 in Q2, P4. rewrite <- !app_assoc in Q2.
  destruct (written_det _ _ R2 _ _ _ _ (cid_written _ CO) Q2) as (_ & -> & Q2').
  assert (WI : written i (cbor i)) by (apply (travels_written _ _ HT); lia).
  destruct (written_det _ _ R3 _ _ _ _ WI Q2') as (_ & -> & _).
  destruct (travels_read _ _ HT) as (iv & W & N); [lia|]. rewrite (peer_id_read _ _ _ _ _ _ CO W P4) in P7. exact (N _ _ P7).
Qed.
Lemma heard_3 : forall (E : env) b m3, accepts_3 b m3 -> sizes_ok (the_suite (s2 b)) -> exists x d cr0 pub ct, processed_3 (s2 b) (ev3 b) x d cr0 pub ct m3 /\ after_3 (s2 b) (s3 b) x.
Proof.
  intros E b m3 (nn & t & H) S. destruct (call_process_3 _ _ _ _ _ _ H S) as (e & x & d & cr0 & pub & ct & T & A & B). apply app_inv_tail in T. subst e. exists x, d, cr0, pub, ct. now split.
Qed.
Lemma tokens_2 : forall (E : env) a m1 m2, opened a m1 m2 -> c_tokens (s2 a) = [] /\ c_chosen_method (s2 a) = my_method (s0 a).
Proof.
  intros E a m1 m2 O. destruct (opened_facts _ _ _ _ O) as (l & gx & x & d & cr0 & pub & FA & _). destruct FA as (_ & _ & _ & M & _ & ((_ & K & _ & _ & T) & _) & _).
  split; [exact T|]. now rewrite K.
Qed.
Lemma tokens_b : forall (E : env) b m1 m2, answered b m1 m2 -> c_tokens (s2 b) = [] /\ c_chosen_method (s2 b) = c_chosen_method (s1 b) /\ c_ead (s2 b) = c_ead (s0 b).
Proof.
  intros E a m1 m2 O. destruct (answered_facts _ _ _ _ O) as (x & sig & FA & _). destruct FA as (_ & (_ & _ & K1 & _) & _ & _ & _ & _ & _ & ((_ & K & _ & K2 & T) & _)).
  split; [exact T|]. split; [exact K|]. now rewrite K2.
Qed.
Lemma unlike_both : forall T b q, no_collision T q -> (forall x, In x (seen b) -> In x T) -> unlike (seen (se q)) (seen b).
Proof. intros T b q U H. apply unlike_sym. exact (unlike_q _ _ _ U H). Qed.
Lemma initiator_signed : forall (E : env) b m1 m2 m3 (owner : bytes -> session -> Prop),
  answered b m1 m2 -> accepts_3 b m3 -> contract (ev3 b) -> initiator_static (c_chosen_method (s1 b)) = false ->
  no_forged_signature owner (ev3 b) -> (forall pub q, owner pub q -> no_collision (ev1 b ++ ev2 b) q) ->
  exists pub q, owner pub q /\ confirms q /\ se_m1 q = m1 /\ same_session (se q) b /\ same_credential MSG_3 (ev3 (se q)) (ev3 b) pub.
Proof.
  intros E b m1 m2 m3 owner O A3 C3 ST NF NC. destruct (answered_facts _ _ _ _ O) as (xb & sb & FA & VA & TA & SA1 & SA2).
  destruct (heard_3 _ _ _ A3 SA2) as (x & d & cr0 & pub & ct & P & AF). destruct (tokens_b _ _ _ _ O) as (_ & KM & _).
  destruct P as (_ & _ & _ & _ & _ & _ & PV & _ & PH & PC & _). rewrite KM, ST in PC. unfold checks in PC.
  destruct (NF _ _ _ PC) as (q & OW & Q). pose proof (NC _ _ OW) as U. exists pub, q. split; [exact OW|].
  assert (LX : zlen (sig_input (th_of (s2 b)) (r3_cred x) (r3_ead x) (r3_mac x)) < 2 ^ 64).
  { destruct C3 as (_ & _ & (_ & _ & LV & _)). destruct PC as (kid & PC). exact (LV _ _ _ (key_in _ _ _ _ _ PC)). }
  pose proof (ext_le (id_bytes (r3_cred x)) (external (th_of (s2 b)) (cred_bytes_of (r3_cred x)) (eads (r3_ead x))) (r3_mac x)) as LE. unfold sig_input in LX.
  destruct Q as [[AQ (kid & s & Q)]|[AQ (kid & s & Q)]].
  - exfalso. destruct (answered_facts _ _ _ _ AQ) as (x' & sig & FB & VB & TB & _).
    pose proof AQ as (_ & _ & S2 & _). pose proof (answer_signs _ _ _ _ _ _ _ _ FB S2 Q) as I. unfold sig_input in I.
    apply sig_det in I as (_ & I2 & _); [|exact LX]. apply external_det in I2 as [I2 _]; [|lia]. rewrite I2 in VA.
    exact (view_sep _ _ _ _ _ _ _ _ _ _ _ _ _ VB VA (unlike_both _ _ _ U (incl_seen b))).
  - split; [exact AQ|]. destruct AQ as (AQ & S3 & _). destruct (opened_facts _ _ _ _ AQ) as (l' & gx' & x' & d' & cr0' & pub' & FB & VB & TB & _ & SB).
    destruct (confirm_3 _ _ S3 SB) as (x3 & sig & ctq & C3' & _). pose proof (confirm_signs _ _ _ _ _ _ _ _ C3' S3 Q) as I. unfold sig_input in I.
    apply sig_det in I as (I1 & I2 & I3); [|exact LX]. apply external_det in I2 as [I2 I4]; [|lia].
    destruct (same_th3 _ _ _ _ _ _ _ _ AQ O (unlike_both _ _ _ U (incl_seen b)) (eq_sym I2)) as (M & SS).
    split; [now symmetry|]. split; [exact SS|]. destruct C3' as (_ & F1 & F2 & _). exists (r3_cred x3), cr0, (r3_cred x), (r3_ead x3), (r3_ead x).
    repeat (split; [assumption|]). split; [exact (composed_nil _ _ _ _ (proj1 (tokens_2 _ _ _ _ AQ)) F2)|]. split; [exact (proj2 PH)|]. split; assumption.
Qed.
Lemma initiator_maced : forall (E : env) b m1 m2 m3 (owner : bytes -> session -> Prop),
  answered b m1 m2 -> accepts_3 b m3 -> contract (ev3 b) -> initiator_static (c_chosen_method (s1 b)) = true -> plain_ids (ev3 b) ->
  no_forged_mac owner MAC_3 (ev3 b) -> (forall pub q, owner pub q -> no_collision (ev1 b ++ ev2 b) q /\ plain_ids (ev3 (se q))) ->
  exists pub q, owner pub q /\ confirms q /\ se_m1 q = m1 /\ same_session (se q) b /\ same_credential MSG_3 (ev3 (se q)) (ev3 b) pub.
Proof.
  intros E b m1 m2 m3 owner O A3 C3 ST PI NF NC. destruct (answered_facts _ _ _ _ O) as (xb & sb & FA & VA & TA & SA1 & SA2).
  destruct (heard_3 _ _ _ A3 SA2) as (x & d & cr0 & pub & ct & P & AF).
  destruct P as ((_ & _ & _ & PM & _) & _ & _ & _ & _ & _ & PV & _ & PH & PC & _). cbv zeta in PM.
  destruct (NF _ _ _ _ _ _ _ _ PV PM) as (q & OW & Q). destruct (NC _ _ OW) as [U PQ]. exists pub, q. split; [exact OW|].
  match type of Q with has_maced _ (info _ _ ?n) => assert (LX : zlen (info MAC_3 (context_3 (id_bytes (r3_cred x)) (th_of (s2 b)) (cred_bytes_of (r3_cred x)) (eads (r3_ead x))) n) < 2 ^ 64) end.
  { destruct C3 as (_ & _ & (_ & _ & _ & LE & _)). destruct PM as (kid & o & PM & _). exact (LE _ _ _ _ (key_in _ _ _ _ _ PM)). }
  match type of LX with zlen (info MAC_3 ?c ?n) < _ => pose proof (info_le MAC_3 c n) as LC end.
  destruct Q as [[AQ (prk & n & o & Q)]|[AQ (prk & n & o & Q)]].
  - exfalso. destruct (answered_facts _ _ _ _ AQ) as (x' & sig & FB & VB & TB & _).
    pose proof AQ as (_ & _ & S2 & _). destruct (answer_macs _ _ _ _ _ _ _ _ _ _ _ FB S2 Q (or_intror eq_refl)) as (len' & I).
    apply info_det in I as (I & _); [discriminate I|unfold MAC_3; lia|unfold MAC_2; lia|exact LX].
  - split; [exact AQ|]. destruct AQ as (AQ & S3 & _). destruct (opened_facts _ _ _ _ AQ) as (l' & gx' & x' & d' & cr0' & pub' & FB & VB & TB & _ & SB).
    destruct (confirm_3 _ _ S3 SB) as (x3 & sig & ctq & C3' & _). destruct (confirm_macs _ _ _ _ _ _ _ _ _ _ _ C3' S3 Q (or_intror eq_refl)) as (len' & I).
    apply info_det in I as (_ & I); [|unfold MAC_3; lia|unfold MAC_3; lia|exact LX]. unfold context_3 in *. destruct C3' as (_ & F1 & F2 & _).
    destruct (proj2 PI _ _ _ PV) as (i1 & W1). destruct (proj1 PQ _ F1) as (i2 & W2). destruct (written_det _ _ W1 _ _ _ _ W2 I) as (_ & I1 & I2).
    apply external_det in I2 as [I2 I4]; [|rewrite zlen_app in LC; pose proof (zlen_nonneg _ (id_bytes (r3_cred x))); lia].
    destruct (same_th3 _ _ _ _ _ _ _ _ AQ O (unlike_both _ _ _ U (incl_seen b)) (eq_sym I2)) as (M & SS).
    split; [now symmetry|]. split; [exact SS|]. exists (r3_cred x3), cr0, (r3_cred x), (r3_ead x3), (r3_ead x).
    repeat (split; [assumption|]). split; [exact (composed_nil _ _ _ _ (proj1 (tokens_2 _ _ _ _ AQ)) F2)|]. split; [exact (proj2 PH)|]. split; assumption.
Qed.

(** Same PLAINTEXT_3: same identifier and EAD items of the initiator. *)
Lemma same_ptxt_3 : forall (EI ER : env) a b m1 m2 m1' m2' m3 m3' x sig ct y d cr0 pub ct',
  @opened EI a m1 m2 -> @answered ER b m1' m2' -> @sends_3 EI a m3 -> @accepts_3 ER b m3' ->
  @composed_3 EI (s2 a) (ev3 a) x sig ct m3 -> @processed_3 ER (s2 b) (ev3 b) y d cr0 pub ct' m3' -> r3_ptxt y = r3_ptxt x ->
  same_identifier (ev3 a) (ev3 b) /\ @same_ead ER MSG_3 (ev3 a) b (ev3 b).
Proof.
  intros EI ER a b m1 m2 m1' m2' m3 m3' x sig ct y d crr pubr ct' OA OB (nn & n & t & IA) (nn' & t' & RB) Q P PT. split.
  - intros cr i cr0 r cr' pub HF HT HV.
    pose proof (once_call Quiet.KFetch _ _ _ _ _ _ _ (@Quiet.m3_compose_u EI Quiet.KFetch nn n) IA) as OF.
    pose proof (once_call Quiet.KVerify _ _ _ _ _ _ _ (@Quiet.m3_process_u ER Quiet.KVerify nn' m3') RB) as OV.
    destruct P as (_ & _ & _ & P4 & P5 & P6 & P7 & _). destruct Q as (_ & Q2 & _ & _ & Q5 & _).
    pose proof (once_same _ _ _ _ OF HF Q2 eq_refl eq_refl) as EF. injection EF as EF. rewrite <- EF in Q5.
    pose proof (once_same _ _ _ _ OV HV P7 eq_refl eq_refl) as EV. injection EV as EV _ _ _. subst crr.
    rewrite PT, Q5, (@travels_sent EI _ _ HT) in P5.
    assert (LP : zlen (r3_ptxt x) < 2 ^ 64) by (rewrite <- PT, P4; apply size_sub_lt).
    rewrite Q5, (@travels_sent EI _ _ HT), !zlen_app in LP.
    pose proof (zlen_nonneg _ (cbor (Bstr sig))). pose proof (zlen_nonneg _ (eads (r3_ead x))).
    destruct (travels_read _ _ HT) as (iv & W & N); [lia|].
    rewrite (peer_id_read_3 _ _ _ _ _ W P5) in P6. exact (N _ _ P6).
  - intros LO HT FP ME.
    pose proof (once_call Quiet.KCompose _ _ _ _ _ _ _ (@Quiet.m3_compose_u EI Quiet.KCompose nn n) IA) as OF.
    pose proof (once_call Quiet.KProcess _ _ _ _ _ _ _ (@Quiet.m3_process_u ER Quiet.KProcess nn' m3') RB) as OV.
    pose proof (proj1 (tokens_2 _ _ _ _ OA)) as TA. destruct (tokens_b _ _ _ _ OB) as (TB & _ & KE).
    destruct P as (_ & _ & _ & P4 & P5 & _ & _ & P8 & P9 & _). destruct Q as (_ & Q2 & Q3 & _ & Q5 & _ & _ & _ & [_ QL]).
    destruct (HT _ Q2) as (i & HTi). rewrite TA in Q3. rewrite TB, stored_nil in P8. rewrite (@travels_sent EI _ _ HTi) in Q5.
    assert (LP : zlen (r3_ptxt x) < 2 ^ 64) by (rewrite <- PT, P4; apply size_sub_lt).
    rewrite Q5, !zlen_app in LP.
    pose proof (zlen_nonneg _ (cbor i)). pose proof (zlen_nonneg _ (cbor (Bstr sig))). pose proof (zlen_nonneg _ (eads (r3_ead x))). pose proof (bstr_le sig).
    destruct (travels_read _ _ HTi) as (iv & W & _); [lia|].
    assert (FI : Forall ead_fits (map ead_of (r3_ead x))) by (apply (ead_fits_all _ (zlen (eads (r3_ead x)))); [exact (labels_of _ _ _ LO Q3)|apply Z.le_refl|lia]).
    destruct (plaintext_3_rt (@cf_canon ER) i iv sig (map ead_of (r3_ead x)) W) as (d' & D1 & _ & _ & D5 & _);
      [lia|exact FI|unfold zlen in *; now rewrite map_length|].
    change (cbor_seq (flat_map ead_items (map ead_of (r3_ead x)))) with (eads (r3_ead x)) in D1. rewrite <- Q5, <- PT, P5 in D1. injection D1 as <-.
    rewrite (sent_composed _ _ _ OF Q3), <- D5, <- P8. destruct P9 as [G1 G2]. apply received_all; [exact OV|exact G2|]. intros NE.
    apply G1; [now rewrite KE|exact ME|exact NE].
Qed.
(** TH_4 is a hash over TH_3. *)
Lemma th4_conf : forall (E : env) a m3 x sig ct, composed_3 (s2 a) (ev3 a) x sig ct m3 -> after_3 (s2 a) (s3 a) x -> exists n r, hashed (ev3 a) (cbor (Bstr (th_of (s2 a))) ++ r) n (th_of (s3 a)) /\
  r = r3_ptxt x ++ cred_bytes_of (r3_cred x).
Proof. intros E a m3 x sig ct ((_ & _ & _ & _ & H) & _) (_ & _ & _ & _ & -> & _). eexists. eexists. split; [exact H|reflexivity]. Qed.
Lemma th4_heard : forall (E : env) b m3 x d cr0 pub ct, processed_3 (s2 b) (ev3 b) x d cr0 pub ct m3 -> after_3 (s2 b) (s3 b) x -> exists n r, hashed (ev3 b) (cbor (Bstr (th_of (s2 b))) ++ r) n (th_of (s3 b)) /\
  r = r3_ptxt x ++ cred_bytes_of (r3_cred x).
Proof. intros E b m3 x d cr0 pub ct ((_ & _ & _ & _ & H) & _) (_ & _ & _ & _ & -> & _). eexists. eexists. split; [exact H|reflexivity]. Qed.
Lemma view_hash3 : forall T m1 gy th2 ci p th3, view T m1 gy th2 ci p th3 -> exists n, hashed T (cbor (Bstr th2) ++ p) n th3 /\ zlen (cbor (Bstr th2) ++ p) < 2 ^ 64.
Proof. intros T m1 gy th2 ci p th3 (n & h & _ & _ & _ & H & _ & L & _). exists n. now split. Qed.
Lemma seen_q : forall q x n y, hashed (seen (se q)) x n y -> hashed (ev1 (se q) ++ ev2 (se q) ++ ev3 (se q)) x n y.
Proof. intros q x n y H. unfold seen, hashed in *. rewrite app_assoc. apply in_or_app. now left. Qed.
Lemma ev3_q : forall q x n y, hashed (ev3 (se q)) x n y -> hashed (ev1 (se q) ++ ev2 (se q) ++ ev3 (se q)) x n y.
Proof. intros q x n y H. unfold hashed in *. rewrite app_assoc. apply in_or_app. now right. Qed.
Lemma aad_lt : forall (E : env) e k n th y p, in_memory e -> decrypted e k n (aad th) y p -> zlen (aad th) < 2 ^ 64.
Proof. intros E e k n th y p (_ & _ & _ & _ & _ & L) (kid & H). exact (L _ _ _ _ _ (key_in _ _ _ _ _ H)). Qed.

(** The session that sealed message 3 also has the transcript and the key. *)
Lemma initiator_sealed_by : forall (E : env) b m1 m2 m3 (peer : session -> Prop),
  answered b m1 m2 -> accepts_3 b m3 -> contract (ev3 b) ->
  no_forged_ciphertext peer (ev3 b) -> (forall q, peer q -> no_collision (ev1 b ++ ev2 b) q) ->
  exists q, (peer q /\ confirms q /\ se_m1 q = m1 /\ same_session (se q) b /\ same_identifier (ev3 (se q)) (ev3 b) /\ same_ead MSG_3 (ev3 (se q)) b (ev3 b)) /\
    th_of (s2 (se q)) = th_of (s2 b) /\ exists x d cr0 pub ct, processed_3 (s2 b) (ev3 b) x d cr0 pub ct m3 /\ after_3 (s2 b) (s3 b) x /\
      encrypted (ev3 (se q)) (r3_key x) (r3_iv x) (aad (th_of (s2 b))) (r3_ptxt x) ct.
Proof.
  intros E b m1 m2 m3 peer O A3 C3 NF NC. destruct (answered_facts _ _ _ _ O) as (xb & sb & FA & VA & TA & SA1 & SA2).
  destruct (heard_3 _ _ _ A3 SA2) as (x & d & cr0 & pub & ct & P & AF). pose proof P as (_ & _ & PD & _).
  destruct (NF _ _ _ _ _ PD) as (q & OW & Q). pose proof (NC _ OW) as U. exists q.
  assert (LX : zlen (aad (th_of (s2 b))) < 2 ^ 64) by (destruct C3 as (_ & _ & C3); exact (aad_lt _ _ _ _ _ _ _ C3 PD)).
  destruct Q as [[AQ Q]|[AQ Q]].
  - pose proof AQ as (AQ' & S3 & _). destruct (opened_facts _ _ _ _ AQ') as (l' & gx' & x' & d' & cr0' & pub' & FB & VB & TB & _ & SB).
    destruct (confirm_3 _ _ S3 SB) as (x3 & sig & ctq & C3' & _). destruct (confirm_seals _ _ _ _ _ _ _ _ _ _ C3' S3 Q) as [I PT]. apply aad_det in I; [|exact LX].
    destruct (same_th3 _ _ _ _ _ _ _ _ AQ' O (unlike_both _ _ _ U (incl_seen b)) (eq_sym I)) as (M & SS).
    split; [|split; [now symmetry|exists x, d, cr0, pub, ct; split; [exact P|split; [exact AF|exact Q]]]].
    split; [exact OW|]. split; [exact AQ|]. split; [now symmetry|]. split; [exact SS|]. exact (same_ptxt_3 _ _ _ _ _ _ _ _ _ _ _ _ _ _ _ _ _ _ AQ' O S3 A3 C3' P PT).
  - exfalso. destruct AQ as (AQ & A3' & CQ & S4 & _). destruct (answered_facts _ _ _ _ AQ) as (x' & sig & FB & VB & TB & _ & SB).
    destruct (heard_3 _ _ _ A3' SB) as (y & d' & cr0' & pub' & ct' & P' & AF').
    assert (SC : sizes_ok (the_suite (s3 (se q)))) by (destruct AF' as ((-> & _) & _); exact SB).
    destruct (close_seals _ _ _ _ _ _ _ _ S4 SC Q) as [I _]. apply aad_det in I; [|exact LX].
    destruct (th4_heard _ _ _ _ _ _ _ _ P' AF') as (n & r & H & _). destruct (view_hash3 _ _ _ _ _ _ _ VA) as (n' & H' & L'). rewrite I in H'.
    pose proof (U _ _ _ _ _ H' (ev3_q _ _ _ _ H)) as X. pose proof L' as L2. rewrite X in L2. apply bstr_det in X as [X _]; [|exact (first_le _ _ L')|exact (first_le _ _ L2)].
    rewrite <- X in VB. exact (view_sep _ _ _ _ _ _ _ _ _ _ _ _ _ VA VB (unlike_q _ _ _ U (incl_seen b))).
Qed.
Lemma initiator_sealed : forall (E : env) b m1 m2 m3 (peer : session -> Prop),
  answered b m1 m2 -> accepts_3 b m3 -> contract (ev3 b) ->
  no_forged_ciphertext peer (ev3 b) -> (forall q, peer q -> no_collision (ev1 b ++ ev2 b) q) ->
  exists q, peer q /\ confirms q /\ se_m1 q = m1 /\ same_session (se q) b /\ same_identifier (ev3 (se q)) (ev3 b) /\ same_ead MSG_3 (ev3 (se q)) b (ev3 b).
Proof.
  intros E b m1 m2 m3 peer O A3 C3 NF NC. destruct (initiator_sealed_by _ _ _ _ _ _ O A3 C3 NF NC) as (q & H & _). exists q. exact H.
Qed.

(** ** C68 *)
Lemma responder_closed_by : forall (E : env) a m1 m2 m3 ev4 m4 (peer : session -> Prop),
  opened a m1 m2 -> sends_3 a m3 -> contract (ev3 a) -> accepts_4 a ev4 m4 -> contract ev4 ->
  no_forged_ciphertext peer ev4 -> (forall q, peer q -> no_collision (ev1 a ++ ev2 a ++ ev3 a) q) ->
  exists q, (peer q /\ closes q /\ se_m1 q = m1 /\ same_session a (se q) /\ same_identifier (ev3 a) (ev3 (se q)) /\ same_ead MSG_4 (se_ev4 q) a ev4) /\
    th_of (s3 a) = th_of (s3 (se q)) /\ exists key iv ct p, keys_4 ev4 (the_suite (s3 a)) (th_of (s3 a)) (prk_of (s3 a)) key iv /\
      encrypted (se_ev4 q) key iv (aad (th_of (s3 a))) p ct.
Proof.
  intros E a m1 m2 m3 ev4 m4 peer O S3 C3 A4 C4 NF NC. destruct (opened_facts _ _ _ _ O) as (l & gx & xa & d & cr0 & pub & FA & VA & TA & SA1 & SA2).
  destruct (confirm_3 _ _ S3 SA2) as (x3 & sig & ctq & C3' & AF). destruct (th4_conf _ _ _ _ _ _ C3' AF) as (n & r & H & HR).
  assert (SC : sizes_ok (the_suite (s3 a))) by (destruct AF as ((-> & _) & _); exact SA2). pose proof A4 as (nn4 & t4 & c4 & H4).
  pose proof (sat_run _ _ _ _ _ _ _ (@run_process_4 E nn4 m4 (s3 a) t4 (sizes_lens _ SC)) H4 eq_refl) as R'.
  destruct R' as (f' & key' & iv' & ct' & ptx & F1 & F2 & F3 & PD & F5 & F6 & _). cbn [w_tr] in F1. apply app_inv_tail in F1. subst f'.
  destruct (NF _ _ _ _ _ PD) as (q & OW & Q). pose proof (NC _ OW) as U. exists q.
  assert (LX : zlen (aad (th_of (s3 a))) < 2 ^ 64) by (destruct C4 as (_ & _ & C4); exact (aad_lt _ _ _ _ _ _ _ C4 PD)).
  assert (LH : zlen (cbor (Bstr (th_of (s2 a))) ++ r) < 2 ^ 64) by (destruct C3 as (_ & _ & (C3 & _)); exact (C3 _ _ _ H)).
  assert (HT : hashed (ev1 a ++ ev2 a ++ ev3 a) (cbor (Bstr (th_of (s2 a))) ++ r) n (th_of (s3 a))) by (unfold hashed in *; rewrite app_assoc; apply in_or_app; now right).
  assert (IN : forall y, In y (seen a) -> In y (ev1 a ++ ev2 a ++ ev3 a)) by (intros y Y; rewrite app_assoc; apply in_or_app; now left).
  pose proof (unlike_q _ a _ U IN) as UN.
  destruct Q as [[AQ Q]|[AQ Q]].
  - exfalso. destruct AQ as (AQ & S3' & _). destruct (opened_facts _ _ _ _ AQ) as (l' & gx' & x' & d' & cr0' & pub' & FB & VB & TB & _ & SB).
    destruct (confirm_3 _ _ S3' SB) as (x3' & sig' & ctq' & C3'' & _). destruct (confirm_seals _ _ _ _ _ _ _ _ _ _ C3'' S3' Q) as [I _]. apply aad_det in I; [|exact LX].
    destruct (view_hash3 _ _ _ _ _ _ _ VB) as (n' & H' & L'). rewrite <- I in H'.
    pose proof (U _ _ _ _ _ HT (seen_q _ _ _ _ H')) as X. apply bstr_det in X as [X _]; [|exact (first_le _ _ LH)|exact (first_le _ _ L')].
    rewrite X in VA. exact (view_sep _ _ _ _ _ _ _ _ _ _ _ _ _ VB VA (unlike_sym _ _ UN)).
  - pose proof AQ as AQ0. destruct AQ as (AQ & A3' & CQ & S4 & _). destruct (answered_facts _ _ _ _ AQ) as (x' & sig' & FB & VB & TB & _ & SB).
    destruct (heard_3 _ _ _ A3' SB) as (y & d' & cr0' & pub' & ctz & P' & AF').
    assert (SC' : sizes_ok (the_suite (s3 (se q)))) by (destruct AF' as ((-> & _) & _); exact SB).
    destruct (close_seals _ _ _ _ _ _ _ _ S4 SC' Q) as [I (l4 & L41 & [_ L42] & L43)]. apply aad_det in I; [|exact LX].
    destruct (th4_heard _ _ _ _ _ _ _ _ P' AF') as (n' & r' & H' & HR'). rewrite <- I in H'.
    pose proof (U _ _ _ _ _ HT (ev3_q _ _ _ _ H')) as X. pose proof LH as L2. rewrite X in L2. apply bstr_det in X as [X Y]; [|exact (first_le _ _ LH)|exact (first_le _ _ L2)].
    destruct (same_th3 _ _ _ _ _ _ _ _ O AQ UN X) as (M & SS). split; [|split; [exact I|exists key', iv', ct', ptx; split; [exact F2|exact Q]]].
    split; [exact OW|]. split; [exact AQ0|]. split; [exact M|]. split; [exact SS|]. split.
    + intros cr i cr1 rr cr' pub1 HF HTr HV. pose proof S3 as (nn & nz & t & IA). pose proof A3' as (nn' & t' & RB).
      pose proof (once_call Quiet.KFetch _ _ _ _ _ _ _ (@Quiet.m3_compose_u _ Quiet.KFetch nn nz) IA) as OF.
      pose proof (once_call Quiet.KVerify _ _ _ _ _ _ _ (@Quiet.m3_process_u _ Quiet.KVerify nn' _) RB) as OV.
      pose proof P' as (_ & _ & PD3 & P4 & P5 & P6 & P7 & P8 & _ & _ & _ & PE). destruct C3' as (_ & Q2 & _ & _ & Q5 & _).
      pose proof (once_same _ _ _ _ OF HF Q2 eq_refl eq_refl) as EF. injection EF as EF. rewrite <- EF in Q5, HR.
      pose proof (once_same _ _ _ _ OV HV P7 eq_refl eq_refl) as EV. injection EV as EV _ _ _. subst cr0'.
      destruct CQ as (_ & OQ & _). pose proof (decrypted_wf _ _ _ _ _ _ OQ PD3) as WP.
      assert (TI : Forall token_in (pt_ead d')) by (rewrite (proj1 (tokens_b _ _ _ _ AQ)), stored_nil in P8; rewrite <- P8; apply PE).
      destruct (plaintext_3_sound _ _ _ P5 WP TI) as (b2 & b3 & b4 & rest & E1 & E2 & _).
      rewrite (@travels_sent E _ _ HTr) in Q5. rewrite Y, HR', E1, Q5 in HR. rewrite <- !app_assoc in HR.
      assert (LI : zlen (cbor i) < 2 ^ 64).
      { rewrite Y, HR', E1 in LH. rewrite <- !app_assoc in LH. rewrite HR in LH. rewrite !zlen_app in LH. pose proof (zlen_nonneg _ (cbor (Bstr sig))). pose proof (zlen_nonneg _ (eads (r3_ead x3))).
        pose proof (zlen_nonneg _ (cred_bytes_of cr)). pose proof (zlen_nonneg _ (cbor (Bstr (th_of (s2 a))))). lia. }
      destruct (written_det _ _ E2 _ _ _ _ (travels_written _ _ HTr LI) HR) as (_ & -> & _).
      destruct (travels_read _ _ HTr LI) as (iv & W & N). rewrite E1 in P5. rewrite (peer_id_read_3 _ _ _ _ _ W P5) in P6. exact (N _ _ P6).
    + intros LO _ FP ME. pose proof S4 as (nn & nz & t & c & IB).
      pose proof (once_call Quiet.KCompose _ _ _ _ _ _ _ (@Quiet.m4_compose_u _ Quiet.KCompose nn nz) IB) as OF.
      pose proof (once_call Quiet.KProcess _ _ _ _ _ _ _ (@Quiet.m4_process_u E Quiet.KProcess nn4 m4) H4) as OV.
      assert (TB4 : c_tokens (s3 (se q)) = []) by (destruct AF' as ((_ & _ & _ & _ & T) & _); exact T). rewrite TB4 in L41. subst ptx.
      assert (KE : c_ead (s3 a) = c_ead (s0 a)).
      { destruct AF as ((_ & _ & _ & -> & _) & _). destruct FA as (_ & (_ & _ & K1 & _) & _ & _ & _ & ((_ & _ & _ & -> & _) & _) & _). exact K1. }
      assert (FI : Forall ead_fits (map ead_of l4)) by (apply (ead_fits_all _ (zlen (eads l4))); [exact (labels_of _ _ _ LO L41)|apply Z.le_refl|rewrite F5; apply size_sub_lt]).
      rewrite (sent_composed _ _ _ OF L41). rewrite <- (plaintext_4_rt (@cf_canon E) (map ead_of l4) FI); [|unfold zlen in *; now rewrite map_length].
      destruct F6 as [G1 G2]. apply received_all; [exact OV|exact G2|]. intros NE. apply G1; [now rewrite KE|exact ME|exact NE].
Qed.
Lemma responder_closed : forall (E : env) a m1 m2 m3 ev4 m4 (peer : session -> Prop),
  opened a m1 m2 -> sends_3 a m3 -> contract (ev3 a) -> accepts_4 a ev4 m4 -> contract ev4 ->
  no_forged_ciphertext peer ev4 -> (forall q, peer q -> no_collision (ev1 a ++ ev2 a ++ ev3 a) q) ->
  exists q, peer q /\ closes q /\ se_m1 q = m1 /\ same_session a (se q) /\ same_identifier (ev3 a) (ev3 (se q)) /\ same_ead MSG_4 (se_ev4 q) a ev4.
Proof.
  intros E a m1 m2 m3 ev4 m4 peer O S3 C3 A4 C4 NF NC. destruct (responder_closed_by _ _ _ _ _ _ _ _ O S3 C3 A4 C4 NF NC) as (q & H & _). exists q. exact H.
Qed.
