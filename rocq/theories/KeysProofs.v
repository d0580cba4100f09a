(** Lemmas behind the property theorems on the keys of sessions under attack.  No code of /repo is modelled here. *)
From Verif Require Import Monad Api Common Msg1 Msg2 Msg3 Msg4 Exporter History Spec Rfc Uses
  Conform Wire Received Facts Logic Sym CborProofs RfcProofs CodecProofs WireProofs Steps Steps2 Steps3 Run2
  Run2p Run1 Run3 Run4 Sessions Fresh RoundTrip Agree Honest Live Peers Claims Claims2 Claims3 NegProofs2 Active ActiveProofs Keys.
From Verif Require Once Quiet.

(** An event that occurs once was made under one key. *)
Lemma split_once : forall A (f : A -> bool) x t1 t2 t1' t2', f x = true -> (length (filter f (t1 ++ x :: t2)) <= 1)%nat ->
  t1 ++ x :: t2 = t1' ++ x :: t2' -> t2 = t2'.
Proof.
  intros A f x t1. induction t1 as [|y t1 IH]; intros t2 t1' t2' F L H.
  - destruct t1' as [|z t1']; cbn [app] in H; [now injection H|]. exfalso. injection H as <- H. cbn [app filter] in L. rewrite F in L. cbn [length] in L.
    rewrite H, filter_app, app_length in L. cbn [filter] in L. rewrite F in L. cbn [length] in L. lia.
  - destruct t1' as [|z t1']; cbn [app] in H; injection H as -> H.
    + exfalso. cbn [app filter] in L. rewrite F, filter_app in L. cbn [length filter] in L. rewrite F, app_length in L. cbn [length] in L. lia.
    + apply (IH t2 t1' t2' F); [|exact H]. cbn [app filter] in L. destruct (f z); cbn [length] in L; lia.
Qed.
Lemma once_key : forall k A (m : M A) w a w' e x kid kt key kt' key', Once.upto (Once.of_kind k) 1 m -> m w = Ret a w' -> w_tr w' = e ++ w_tr w ->
  Once.of_kind k x = true -> with_key e x kid kt key -> with_key e x kid kt' key' -> key = key'.
Proof.
  intros k A m w a w' e x kid kt key kt' key' H R T KX (t1 & t2 & -> & K) (t1' & t2' & S & K'). specialize (H w). rewrite R in H. destruct H as (e' & T' & L).
  rewrite T in T'. apply app_inv_tail in T'. subst e'. pose proof (split_once _ _ _ _ _ _ _ KX L S) as <-. rewrite K in K'. now injection K'.
Qed.
Section Seals.
Context {E : env}.
Lemma confirm_key : forall a m3 x sig ct k n ad p y, composed_3 (s2 a) (ev3 a) x sig ct m3 -> sends_3 a m3 -> encrypted (ev3 a) k n ad p y -> k = r3_key x.
Proof.
  intros a m3 x sig ct k n ad p y A (nn & j & t & H) (kid & G). destruct A as (_ & _ & _ & _ & _ & (kid' & A) & _). pose proof (key_in _ _ _ _ _ G) as G'. pose proof (key_in _ _ _ _ _ A) as A'.
  pose proof (Once.upto_one Once.KSeal _ _ _ _ _ _ _ _ (Once.compose_3_u Once.KSeal nn j) H eq_refl G' A' eq_refl eq_refl) as Q. injection Q as Q0 Q1 Q2 Q3 Q4. subst kid' n ad p y.
  refine (once_key Once.KSeal _ _ _ _ _ _ _ _ _ _ _ _ (Once.compose_3_u Once.KSeal nn j) H eq_refl _ G A). reflexivity.
Qed.
Lemma close_key : forall b e m4 k n ad p y, sends_4 b e m4 -> sizes_ok (the_suite (s3 b)) -> encrypted e k n ad p y ->
  expanded e (prk_of (s3 b)) (info K_4 (th_of (s3 b)) (cs_key (the_suite (s3 b)))) (cs_key (the_suite (s3 b))) k.
Proof.
  intros b e m4 k n ad p y (nn & j & t & c & H) S (kid & G). pose proof (key_in _ _ _ _ _ G) as G'.
  destruct (call_compose_4 _ _ _ _ _ _ _ H S) as (e' & l & key & iv & ct & T & [K4 _] & _ & _ & (kid' & A) & _).
  apply app_inv_tail in T. subst e'. pose proof (key_in _ _ _ _ _ A) as A'.
  pose proof (Once.upto_one Once.KSeal _ _ _ _ _ _ _ _ (Once.compose_4_u Once.KSeal nn j) H eq_refl G' A' eq_refl eq_refl) as Q. injection Q as Q0 Q1 Q2 Q3 Q4. subst kid' n ad p y.
  assert (X : k = key) by (refine (once_key Once.KSeal _ _ _ _ _ _ _ _ _ _ _ _ (Once.compose_4_u Once.KSeal nn j) H eq_refl _ G A); reflexivity). rewrite X. exact K4.
Qed.
End Seals.

(** Two contexts with the same TH_4, PRK_4e3m and suite, and mirrored identifiers, export the same. *)
Lemma hands_later : forall (E : env) p s c rs e sk, 0 <= cs_hash s < 2 ^ 32 -> later c rs e -> obeys p sk e -> expands_ok e ->
  the_suite c = s -> c_prk_len c = cs_hash s -> c_prk_state c = PRK_4E3M -> c_th_state c = TH_4 -> over c -> forall rs1 r rs2, rs = rs1 ++ r :: rs2 ->
  hands p s (prk_out_after p (cs_hash s) (prk_out p (cs_hash s) (th_of c) (prk_of c)) rs1) (c_cid c) (c_peer_cid c) r.
Proof.
  intros E p s c rs e sk Hs (l & t & c' & Hl & R) (F & _ & _ & K & _) XO A1 A2 A3 A4 OV rs1 r rs2 Er.
  destruct (@live_runs E p s (th_of c) (prk_of c) Hs _ (Wd c t) _ _ Hl OV R) as (_ & _ & t' & T & H).
  cbn [w_tr] in T. apply app_inv_tail in T. subst t'. 
  assert (SO : sound p e) by (split; [exact F|split; [exact XO|exact K]]).
  assert (AL : alive p s (th_of c) (prk_of c) (prk_out p (cs_hash s) (th_of c) (prk_of c)) c) by (repeat split; try assumption; left; repeat split; assumption).
  destruct (H SO _ AL) as [_ H']. exact (H' _ _ _ Er).
Qed.
Lemma secrets_export : forall (E E' : env) p s c c', 0 <= cs_hash s < 2 ^ 32 ->
  the_suite c = s -> the_suite c' = s -> c_prk_len c = cs_hash s -> c_prk_len c' = cs_hash s ->
  c_prk_state c = PRK_4E3M -> c_prk_state c' = PRK_4E3M -> c_th_state c = TH_4 -> c_th_state c' = TH_4 ->
  c_status c = SM_COMPLETED -> c_status c' = SM_COMPLETED -> th_of c = th_of c' -> prk_of c = prk_of c' ->
  cid_rfc (c_peer_cid c) = cid_rfc (c_cid c') -> cid_rfc (c_peer_cid c') = cid_rfc (c_cid c) -> exports_agree E E' p c c'.
Proof.
  intros E E' p s c c' Hs S1 S2 L1 L2 P1 P2 T1 T2 C1 C2 TH PRK I1 I2 ra ea ra1 x ra2 rb eb rb1 y rb2 sk sk' LA OA XA RA LB OB XB RB EN.
  assert (V : over c) by (right; rewrite C1; discriminate). assert (V' : over c') by (right; rewrite C2; discriminate).
  destruct (hands_later _ _ _ _ _ _ _ Hs LA OA XA S1 L1 P1 T1 V _ _ _ RA) as [HA HA']. destruct (hands_later _ _ _ _ _ _ _ Hs LB OB XB S2 L2 P2 T2 V' _ _ _ RB) as [HB HB'].
  unfold prk_out_after in *. rewrite EN, TH, PRK in *. split.
  - intros label n sa sb N XS YS. now rewrite (HA _ _ _ XS N), (HB _ _ _ YS N).
  - intros n1 n2 sa ta ia ja sb tb ib jb N1 N2 XS YS. destruct (HA' _ _ _ _ _ _ XS N1 N2) as (-> & -> & -> & ->). destruct (HB' _ _ _ _ _ _ YS N1 N2) as (-> & -> & -> & ->).
    rewrite I1, I2. repeat split; reflexivity.
Qed.

(** The end of a handshake. *)
Definition ended (a : trip) : Prop := the_suite (s3 a) = my_suite (s0 a) /\ c_prk_len (s3 a) = cs_hash (my_suite (s0 a)) /\ c_prk_state (s3 a) = PRK_4E3M /\
  c_th_state (s3 a) = TH_4 /\ c_status (s3 a) = SM_COMPLETED /\ c_cid (s3 a) = c_cid (s0 a) /\ the_suite (s2 a) = my_suite (s0 a).
Lemma ended_a : forall (E : env) a m1 m2 m3, opened a m1 m2 -> sends_3 a m3 -> ended a /\ c_peer_cid (s3 a) = c_peer_cid (s2 a) /\
  exists x sig ct, composed_3 (s2 a) (ev3 a) x sig ct m3 /\ after_3 (s2 a) (s3 a) x.
Proof.
  intros E a m1 m2 m3 O S. destruct (opened_facts _ _ _ _ O) as (l & gx & xa & d & cr0 & pub & FA & _ & _ & _ & SA). destruct (confirm_3 _ _ S SA) as (x & sig & ct & C & AF).
  pose proof FA as (_ & (K1 & K2 & _) & _ & _ & _ & ((L1 & _ & L2 & _) & _ & _ & _ & _ & L3) & _). change (the_suite (s1 a) = my_suite (s0 a)) in K1.
  pose proof AF as ((A1 & _ & A2 & _) & _ & A4 & A5 & _ & _ & A6 & _ & A3 & _ & _ & A7).
  split; [|split; [exact A3|exists x, sig, ct; now split]]. unfold ended. split; [congruence|]. split; [rewrite A7; destruct (initiator_static _); congruence|].
  repeat (split; [congruence|]). congruence.
Qed.
Lemma ended_b : forall (E : env) b m1 m2 m3, answered b m1 m2 -> accepts_3 b m3 -> ended b /\ c_peer_cid (s3 b) = c_peer_cid (s1 b) /\
  c_chosen_method (s2 b) = c_chosen_method (s1 b).
Proof.
  intros E b m1 m2 m3 O S. pose proof O as (RB & A1 & A2 & M & _).
  destruct (responder_facts b m1 m2 m3 (conj A1 (conj A2 S)) (proj2 RB) M) as (x2 & sig & x3 & d & cr0 & pub & ct & F).
  destruct F as (_ & (K1 & K2 & _) & _ & _ & _ & _ & _ & _ & _ & ((L1 & L0 & L2 & _) & _ & _ & _ & _ & L3) & PC & _ & AF & _). change (the_suite (s1 b) = my_suite (s0 b)) in K1.
  pose proof AF as ((B1 & _ & B2 & _) & _ & B4 & B5 & _ & _ & B6 & _ & B3 & _ & _ & B7).
  split; [|split; [congruence|exact L0]]. unfold ended. split; [congruence|]. split; [rewrite B7; destruct (initiator_static _); congruence|].
  repeat (split; [congruence|]). congruence.
Qed.
Lemma same_suite : forall a b, same_session a b -> same_table a b -> my_suite (s0 a) = my_suite (s0 b).
Proof. intros a b ((_ & _ & S & _) & _) T. apply T. now symmetry. Qed.
Lemma joined_exports : forall (EI ER : env) a b m1 m2 m3 m1' m2' m3' p, @opened EI a m1 m2 -> @sends_3 EI a m3 -> @answered ER b m1' m2' -> @accepts_3 ER b m3' ->
  same_session a b -> same_table a b -> th_of (s3 a) = th_of (s3 b) -> prk_of (s3 a) = prk_of (s3 b) -> exports_agree EI ER p (s3 a) (s3 b).
Proof.
  intros EI ER a b m1 m2 m3 m1' m2' m3' p OA SA OB SB SS ST TH PRK. destruct (ended_a _ _ _ _ _ OA SA) as ((A1 & A2 & A3 & A4 & A5 & A6 & _) & A7 & _).
  destruct (ended_b _ _ _ _ _ OB SB) as ((B1 & B2 & B3 & B4 & B5 & B6 & _) & B7 & _). pose proof (same_suite _ _ SS ST) as EQ. destruct SS as ((_ & _ & _ & I1 & _) & _ & I2 & _).
  destruct OA as ((_ & HS & _) & _). apply (secrets_export _ _ _ (my_suite (s0 a))); try assumption; congruence.
Qed.
(** ** C69 *)
Lemma confirmed_keys : forall (E : env) a m1 m2 m3 ev4 m4 (peer : session -> Prop),
  opened a m1 m2 -> sends_3 a m3 -> contract (ev3 a) -> accepts_4 a ev4 m4 -> contract ev4 ->
  no_forged_ciphertext peer ev4 ->
  (forall q, peer q -> no_collision (ev1 a ++ ev2 a ++ ev3 a) q /\ no_key_collision ev4 (se_ev4 q)) ->
  exists q, peer q /\ closes q /\ se_m1 q = m1 /\ same_session a (se q) /\ same_secret a (se q) /\
    (same_table a (se q) -> forall p, exports_agree E (se_env q) p (s3 a) (s3 (se q))).
Proof.
  intros E a m1 m2 m3 ev4 m4 peer O S3 C3 A4 C4 NF NC.
  destruct (responder_closed_by _ _ _ _ _ _ _ _ O S3 C3 A4 C4 NF (fun q P => proj1 (NC q P))) as (q & (P & CL & M & SS & _) & TH & key & iv & ct & pt & [K4 _] & EN).
  exists q. split; [exact P|]. split; [exact CL|]. split; [exact M|]. split; [exact SS|]. pose proof CL as (AQ & A3 & _ & S4 & _).
  destruct (ended_a _ _ _ _ _ O S3) as ((A1 & A2 & A5 & A6 & A7 & _) & _). destruct (ended_b _ _ _ _ _ AQ A3) as ((B1 & B2 & B3 & B4 & B5 & _) & _).
  assert (SZ : sizes_ok (the_suite (s3 (se q)))) by (rewrite B1; apply AQ).
  pose proof (close_key _ _ _ _ _ _ _ _ S4 SZ EN) as K4'.
  assert (EK : cs_key (the_suite (s3 (se q))) = cs_key (the_suite (s3 a))).
  { rewrite <- (expanded_len _ _ _ _ _ (proj1 (proj1 (proj2 (proj2 SZ)))) K4'). symmetry. rewrite A1. destruct O as ((_ & _ & _ & HK & _) & _). rewrite A1 in K4.
    symmetry. exact (expanded_len _ _ _ _ _ (proj1 HK) K4). }
  rewrite EK, <- TH in K4'. pose proof (proj2 (NC _ P) _ _ _ _ _ K4 K4') as PRK.
  split; [repeat split; assumption|]. intros ST p. exact (joined_exports _ _ _ _ _ _ _ _ _ _ _ O S3 AQ A3 SS ST TH PRK).
Qed.
Lemma sealed_keys : forall (E : env) b m1 m2 m3 (peer : session -> Prop),
  answered b m1 m2 -> accepts_3 b m3 -> contract (ev3 b) -> no_forged_ciphertext peer (ev3 b) ->
  (forall q, peer q -> no_collision (ev1 b ++ ev2 b) q /\ no_key_collision (ev3 b) (ev3 (se q))) ->
  exists q, peer q /\ confirms q /\ se_m1 q = m1 /\ same_session (se q) b /\
    th_of (s2 (se q)) = th_of (s2 b) /\ prk_of (s2 (se q)) = prk_of (s2 b) /\
    (forall p sk_i sk_r, correct p -> same_table (se q) b -> obeys p sk_i (ev3 (se q)) -> obeys p sk_r (ev2 b) -> obeys p sk_r (ev3 b) ->
       apart (ev3 (se q)) -> honest_credential p sk_i (initiator_static (c_chosen_method (s1 b))) (ev3 (se q)) (ev3 b) ->
       same_secret (se q) b /\ exports_agree (se_env q) E p (s3 (se q)) (s3 b)).
Proof.
  intros E b m1 m2 m3 peer O A3 C3 NF NC.
  destruct (initiator_sealed_by _ _ _ _ _ _ O A3 C3 NF (fun q P => proj1 (NC q P))) as (q & (P & CO & M & SS & _) & TH & x & d & cr0 & pub & ct & PR & AF & EN).
  exists q. split; [exact P|]. split; [exact CO|]. split; [exact M|]. split; [exact SS|]. split; [exact TH|].
  pose proof CO as (OQ & S3 & _). destruct (ended_a _ _ _ _ _ OQ S3) as ((A1 & A2 & A5 & A6 & A7 & _ & A8) & _ & x3 & sig & ctq & C & AFQ).
  destruct (ended_b _ _ _ _ _ O A3) as ((B1 & B2 & B3 & B4 & B5 & _ & B8) & _ & MB).
  pose proof (confirm_key _ _ _ _ _ _ _ _ _ _ C S3 EN) as KE.
  destruct (confirm_seals _ _ _ _ _ _ _ _ _ _ C S3 EN) as [_ PT].
  pose proof PR as ((T1 & _ & T3 & _ & T5) & _ & _ & _ & _ & _ & Y6 & _). pose proof C as ((S1 & _ & S3' & _ & S5) & X1 & _).
  rewrite A8, TH, <- KE in S1. rewrite B8 in T1.
  assert (EK : cs_key (my_suite (s0 (se q))) = cs_key (my_suite (s0 b))).
  { destruct O as ((_ & _ & _ & HK & _) & _). rewrite <- (expanded_len _ _ _ _ _ (proj1 HK) T1). destruct OQ as ((_ & _ & _ & HQ & _) & _).
    symmetry. exact (expanded_len _ _ _ _ _ (proj1 HQ) S1). }
  rewrite EK in S1. pose proof (proj2 (NC _ P) _ _ _ _ _ T1 S1) as PRK. split; [now symmetry|].
  intros p sk_i sk_r [CD _] ST OI OB2 OB3 AP HC. pose proof (same_suite _ _ SS ST) as EQ. destruct (HC _ _ _ _ X1 Y6) as [HC1 HC2].
  pose proof (proj2 (tokens_2 _ _ _ _ OQ)) as MQ. pose proof SS as ((MM & _) & SA & _). rewrite B8, MB in T3. rewrite A8, MQ, <- MM, TH, <- PRK, EQ in S3'.
  assert (E4 : r3_prk4 x3 = r3_prk4 x).
  { set (g := p_dh p (sk_i (cr_priv (r3_cred x3))) (p_pub p (priv_of (s2 b)))).
    rewrite (ob_next p sk_i _ _ _ _ _ _ _ _ g OI S3'), (ob_next p sk_r _ _ _ _ _ _ _ _ g OB3 T3); [reflexivity| |].
    - intros st g' Hg. rewrite (ob_agreed _ _ _ _ _ _ OB3 Hg), (HC2 st). apply CD.
    - intros _ g' Hg. unfold g. rewrite <- (ob_made _ _ _ _ _ OB2 SA). exact (ob_agreed_lt _ _ _ _ _ _ OI AP X1 Hg). }
  assert (ET : r3_th4 x3 = r3_th4 x).
  { rewrite (proj1 (ob_hash _ _ _ _ _ _ OI S5)), (proj1 (ob_hash _ _ _ _ _ _ OB3 T5)). rewrite A8, B8, EQ, TH, PT, HC1. reflexivity. }
  assert (TH4 : th_of (s3 (se q)) = th_of (s3 b)) by (destruct AF as (_ & _ & _ & _ & -> & _); destruct AFQ as (_ & _ & _ & _ & -> & _); exact ET).
  assert (PRK4 : prk_of (s3 (se q)) = prk_of (s3 b)) by (destruct AF as (_ & -> & _); destruct AFQ as (_ & -> & _); exact E4).
  split; [repeat split; assumption|]. exact (joined_exports _ _ _ _ _ _ _ _ _ _ _ OQ S3 O A3 SS ST TH4 PRK4).
Qed.
