(** Lemmas behind the property theorems on identifiers and EAD items between honest peers.
    No code of /repo is modelled here. *)
From Verif Require Import Monad Api Common Msg1 Msg2 Msg3 Msg4 Exporter History Spec Rfc Uses
  Conform Wire Received Facts Logic Quiet Sym CborProofs RfcProofs CodecProofs WireProofs Steps Steps2 Steps3 Run2
  Run2p Run1 Run3 Run4 Sessions Fresh RoundTrip Agree Honest Live Peers Claims Claims2.

(** ** Identifiers on the wire *)
Definition small : list Z := map (fun i => Z.of_nat i - 24) (seq 0 48).
Lemma small_in : forall v, -24 <= v <= 23 -> In v small.
Proof. intros v H. unfold small. apply in_map_iff. exists (Z.to_nat (v + 24)). split; [lia|]. apply in_seq. lia. Qed.
Lemma small_case : forall (P : Z -> bool) v, forallb P small = true -> -24 <= v <= 23 -> P v = true.
Proof. intros P v H V. rewrite forallb_forall in H. apply H, small_in, V. Qed.
Lemma small_sent : forall v, -24 <= v <= 23 -> [u8 (unle4 (enc_int v ++ zeros 4))] = cbor (Num v).
Proof. intros v H. apply beqb_eq. apply (small_case (fun v => beqb [u8 (unle4 (enc_int v ++ zeros 4))] (cbor (Num v)))); [vm_compute; reflexivity|exact H]. Qed.
Lemma small_byte : forall v, -24 <= v <= 23 -> exists x, cbor (Num v) = [x] /\ u8 x = x.
Proof.
  intros v H. exists (nth 0 (cbor (Num v)) 0).
  pose proof (small_case (fun v => beqb (cbor (Num v)) [nth 0 (cbor (Num v)) 0] && (u8 (nth 0 (cbor (Num v)) 0) =? nth 0 (cbor (Num v)) 0)) v eq_refl H) as A.
  cbv beta in A. apply andb_true_iff in A as [A B]. split; [now apply beqb_eq|now apply Z.eqb_eq].
Qed.
Lemma bstr_one : forall b, zlen (cbor (Bstr b)) = 1 -> b = [].
Proof.
  intros b H. rewrite zlen_bstr, zlen_head, arg_width_cases in H. pose proof (zlen_nonneg _ b).
  apply zlen_0. repeat destruct (_ <? _); lia.
Qed.
Section Ids.
Context {E : env}.
Lemma travels_sent : forall cr i, travels cr i -> id_sent cr = cbor i.
Proof.
  intros cr i H. destruct H; unfold id_sent, id_bytes; cbn [cr_body];
    change (ENC_INT =? ENC_INT) with true; change (ENC_BSTR =? ENC_INT) with false; cbv iota.
  - now apply small_sent.
  - apply enc_bstr_rfc.
  - destruct (small_byte v) as (y & Y1 & Y2); [assumption|]. rewrite Y1 in *. injection H0 as ->. now rewrite Y2.
  - destruct (small_byte v) as (y & Y1 & Y2); [assumption|]. subst x. rewrite Y1. change (zlen [y] =? 1) with true. cbv iota. cbn [nth].
    rewrite Y2. destruct (dec_one_int _ _) as [r|]; [destruct (is_one_byte_int r)|]; reflexivity.
  - subst x. destruct (zlen (cbor (Bstr b)) =? 1) eqn:Z1; [|reflexivity]. apply Z.eqb_eq, bstr_one in Z1. subst b.
    destruct (dec_one_int _ _) as [r|]; [destruct (is_one_byte_int r)|]; reflexivity.
  - reflexivity.
  - reflexivity.
  - reflexivity.
Qed.
End Ids.

Lemma cbor_part : forall l i, In i l -> zlen (cbor i) <= zlen (cbor (Arr l)).
Proof.
  intros l i H. cbn [cbor]. fold cbor. rewrite zlen_app. pose proof (zlen_nonneg _ (head 4 (zlen l))).
  assert (X : zlen (cbor i) <= zlen (flat_map cbor l)) by (apply (cbor_in l i H)). lia.
Qed.
Lemma map_one : forall k v, zlen (cbor v) <= zlen (cbor (Map [(k, v)])).
Proof.
  intros k v. cbn [cbor flat_map]. fold cbor. rewrite !zlen_app.
  pose proof (zlen_nonneg _ (head 5 (zlen [(k, v)]))). pose proof (zlen_nonneg _ (cbor k)). cbn [fst snd]. 
  change (zlen (@nil Z)) with 0. lia.
Qed.
Lemma map_one_eq : forall k v, zlen (cbor (Map [(k, v)])) = 1 + zlen (cbor k) + zlen (cbor v).
Proof. intros k v. change (cbor (Map [(k, v)])) with ([161] ++ (cbor k ++ cbor v) ++ []). rewrite !zlen_app, app_nil_r || idtac. rewrite ?zlen_app. change (zlen [161]) with 1. change (zlen (@nil Z)) with 0. lia. Qed.
Lemma map_cons_inv : forall l l' : list bytes, map Bstr l = map Bstr l' -> l = l'.
Proof. induction l as [|x l IH]; intros [|y l'] H; try discriminate; [reflexivity|]. injection H as -> H. f_equal. now apply IH. Qed.
Lemma tstr_le : forall b, zlen b <= zlen (cbor (Tstr b)).
Proof. intro b. cbn [cbor]. rewrite zlen_app. pose proof (zlen_nonneg _ (head 3 (zlen b))). lia. Qed.
(** What the receiver reads back: the item itself, and a credential that travels the same way. *)
Lemma travels_read : forall cr i, travels cr i -> zlen (cbor i) < 2 ^ 64 ->
  exists iv, id_wire i iv /\ forall first cr0, names first (idv_item iv) cr0 ->
    travels cr0 i /\ (raw_kid cr = false -> same_identity cr cr0).
Proof.
  intros cr i H L. destruct H.
  - exists (IvInt v). split; [constructor; unfold int32; lia|]. intros first cr0 N. cbn [names idv_item] in N. subst cr0.
    split; [now constructor|]. intros _. split; reflexivity.
  - pose proof (bstr_le b). exists (IvBstr b). split; [constructor; lia|]. intros first cr0 N. cbn [names idv_item] in N. subst cr0.
    split; [constructor|]. intros _. split; reflexivity.
  - exists (IvInt v). split; [constructor; unfold int32; lia|]. intros first cr0 N. cbn [names idv_item] in N. subst cr0.
    split; [now constructor|discriminate].
  - exists (IvInt v). split; [constructor; unfold int32; lia|]. intros first cr0 N. cbn [names idv_item] in N. subst cr0.
    split; [now constructor|discriminate].
  - pose proof (bstr_le b). exists (IvBstr b). split; [constructor; lia|]. intros first cr0 N. cbn [names idv_item] in N. subst cr0.
    split; [constructor|discriminate].
  - exists (IvMap (cmap_of (idcred_v (X5chain certs)))). split.
    + constructor. split; [assumption|]. apply Forall_forall. intros x Hx. destruct certs as [|y [|z certs]]; [contradiction| |].
      * destruct Hx as [<-|[]]. cbn [idcred_item] in L. pose proof (map_one (Num 33) (Bstr y)). pose proof (bstr_le y). lia.
      * cbn [idcred_item] in L. pose proof (map_one (Num 33) (Arr (map Bstr (y :: z :: certs)))).
        pose proof (cbor_part (map Bstr (y :: z :: certs)) (Bstr x) (in_map Bstr _ _ Hx)). pose proof (bstr_le x). lia.
    + intros first cr0 N. destruct certs as [|y [|z certs]]; [change (zlen (@nil bytes)) with 0 in *; lia| |];
        cbn [idcred_v cmap_of idv_item cmap_item mp_kid mp_chain mp_x5t opt_pair app names param Z.eqb Pos.eqb chain_item] in N;
        inversion N; subst; try (match goal with H : map Bstr _ = _ :: _ |- _ => change (map Bstr l0 = map Bstr (y :: z :: certs)) in H; apply map_cons_inv in H; subst end).
      * split; [now constructor|]. intros _. reflexivity.
      * split; [now constructor|]. intros _. reflexivity.
  - exists (IvMap (cmap_of (idcred_v (X5tNum a fp)))). split.
    + constructor. split; [exact H|]. cbn [idcred_item] in L. pose proof (map_one (Num 34) (Arr [Num a; Bstr fp])).
      pose proof (cbor_part [Num a; Bstr fp] (Bstr fp) ltac:(right; now left)). pose proof (bstr_le fp). lia.
    + intros first cr0 N. cbn [idcred_v cmap_of idv_item cmap_item mp_kid mp_chain mp_x5t opt_pair app names param Z.eqb Pos.eqb x5t_item fst snd] in N.
      inversion N; subst. split; [now constructor|]. intros _. repeat split.
  - exists (IvMap (cmap_of (idcred_v (X5tText a fp)))). split.
    + constructor. cbn [idcred_item] in L. pose proof (map_one (Num 34) (Arr [Tstr a; Bstr fp])).
      pose proof (cbor_part [Tstr a; Bstr fp] (Bstr fp) ltac:(right; now left)). pose proof (bstr_le fp).
      pose proof (cbor_part [Tstr a; Bstr fp] (Tstr a) ltac:(now left)). pose proof (tstr_le a). split; lia.
    + intros first cr0 N. cbn [idcred_v cmap_of idv_item cmap_item mp_kid mp_chain mp_x5t opt_pair app names param Z.eqb Pos.eqb x5t_item fst snd] in N.
      inversion N; subst. split; [now constructor|]. intros _. repeat split.
Qed.
Lemma same_id : forall a b, same_identity a b -> id_bytes a = id_bytes b.
Proof.
  intros [p l a] [p' l' b] H. unfold same_identity, id_bytes in *. cbn [cr_body] in *. destruct a, b; try contradiction.
  - destruct H as [-> H]. destruct (_ =? _); now subst.
  - now subst.
  - destruct H as (-> & -> & H). destruct (_ =? _); now subst.
Qed.

(** ** EAD items *)
Lemma flat_filter : forall (P : event -> bool) (f : event -> list ead) t, (forall e, P e = false -> f e = []) -> flat_map f t = flat_map f (filter P t).
Proof.
  intros P f t H. induction t as [|e t IH]; [reflexivity|]. cbn [flat_map filter]. destruct (P e) eqn:Q; cbn [flat_map]; [now rewrite IH|]. now rewrite (H e Q).
Qed.
Definition once (k : kind) (t : list event) : Prop := (length (filter (of_kind k) t) <= 1)%nat.
Lemma once_call : forall k A (m : M A) c t a c' e, upto (of_kind k) 1 m -> m (Wd c t) = Ret a (Wd c' (e ++ t)) -> once k e.
Proof.
  intros k A m c t a c' e H R. specialize (H (Wd c t)). rewrite R in H. destruct H as (e' & T & L). cbn [w_tr] in T. apply app_inv_tail in T. now subst e'.
Qed.
Lemma once_same : forall k t x y, once k t -> In x t -> In y t -> of_kind k x = true -> of_kind k y = true -> x = y.
Proof.
  intros k t x y H X Y KX KY.
  assert (X' : In x (filter (of_kind k) t)) by (apply filter_In; now split).
  assert (Y' : In y (filter (of_kind k) t)) by (apply filter_In; now split).
  unfold once in H. destruct (filter (of_kind k) t) as [|u [|v l]]; [contradiction| |cbn [length] in H; lia].
  destruct X' as [<-|[]], Y' as [<-|[]]. reflexivity.
Qed.
Lemma once_filter : forall k t x, once k t -> In x t -> of_kind k x = true -> filter (of_kind k) t = [x].
Proof.
  intros k t x H X K. assert (X' : In x (filter (of_kind k) t)) by (apply filter_In; now split).
  unfold once in H. destruct (filter (of_kind k) t) as [|u [|v l]]; [contradiction| |cbn [length] in H; lia]. destruct X' as [<-|[]]. reflexivity.
Qed.
Lemma sent_composed : forall t msg l, once KCompose t -> composed t msg [] l -> sent msg t = map ead_of l.
Proof.
  intros t msg l O [H|[-> H]]; unfold sent; rewrite (flat_filter (of_kind KCompose)) by (intros [] Q; reflexivity || discriminate).
  - rewrite (once_filter _ _ _ O H eq_refl). cbn [flat_map]. rewrite !Z.eqb_refl. cbn [andb]. apply app_nil_r.
  - destruct (filter (of_kind KCompose) t) as [|x f] eqn:F; [reflexivity|]. exfalso.
    assert (X : In x (filter (of_kind KCompose) t)) by (rewrite F; now left). apply filter_In in X as [X K]. destruct x; try discriminate. now apply H in X.
Qed.
Lemma received_all : forall t msg l, once KProcess t ->
  (forall m' l' r, In (EvEadProcess m' l' r) t -> m' = msg /\ l' = l) -> (l <> [] -> In (EvEadProcess msg l OK) t) -> received msg t = map ead_of l.
Proof.
  intros t msg l O H1 H2. unfold received. rewrite (flat_filter (of_kind KProcess)) by (intros [] Q; reflexivity || discriminate).
  destruct l as [|k l].
  - destruct (filter (of_kind KProcess) t) as [|x f] eqn:F; [reflexivity|].
    assert (X : In x (filter (of_kind KProcess) t)) by (rewrite F; now left). apply filter_In in X as [X K]. destruct x; try discriminate.
    unfold once in O. rewrite F in O. destruct f; [|cbn [length] in O; lia]. destruct (H1 _ _ _ X) as [-> ->]. cbn [flat_map]. now rewrite Z.eqb_refl.
  - assert (X : In (EvEadProcess msg (k :: l) OK) t) by (apply H2; discriminate). rewrite (once_filter _ _ _ O X eq_refl).
    cbn [flat_map]. rewrite Z.eqb_refl. apply app_nil_r.
Qed.
(** Nothing is handed over without a process callback. *)
Lemma ead_fits_all : forall l b, (forall k, In k l -> int32 (tk_label k)) -> zlen (eads l) <= b -> b < 2 ^ 64 -> Forall ead_fits (map ead_of l).
Proof.
  intros l b H1 H2 Hb. apply Forall_forall. intros e He. apply in_map_iff in He as (k & <- & Hk). split; [now apply H1|].
  destruct (snd (ead_of k)) as [v|] eqn:V; [|exact I]. 
  assert (zlen v <= zlen (eads l)); [|lia]. unfold eads. apply bstr_in. apply in_flat_map. exists (ead_of k). split; [now apply in_map|].
  unfold ead_items. rewrite V. right. now left.
Qed.
Lemma labels_of : forall t msg l, labels_ok t -> composed t msg [] l -> forall k, In k l -> int32 (tk_label k).
Proof. intros t msg l H [C|[-> _]] k K; [|contradiction]. exact (H _ _ _ C K). Qed.

Lemma peer_id_read : forall canon ci i iv r d, cid_ok ci -> id_wire i iv ->
  dec_plaintext_2 canon (cbor (cid_item ci) ++ cbor i ++ r) = Some d -> pt_id d = iv.
Proof.
  intros canon ci i iv r d H W X. unfold dec_plaintext_2 in X. rewrite cid_dec in X by (assumption || lia).
  rewrite (idv_rt _ _ _ _ _ W) in X by lia. destruct (dec_bstr _ _) as [[sg s3]|]; [|discriminate].
  destruct (dec_ead _ _) as [[ok l] ?]. injection X as <-. reflexivity.
Qed.
Lemma peer_id_read_3 : forall canon i iv r d, id_wire i iv -> dec_plaintext_3 canon (cbor i ++ r) = Some d -> pt_id d = iv.
Proof.
  intros canon i iv r d W X. unfold dec_plaintext_3 in X.
  rewrite (idv_rt _ _ _ _ _ W) in X by lia. destruct (dec_bstr _ _) as [[sg s3]|]; [|discriminate].
  destruct (dec_ead _ _) as [[ok l] ?]. injection X as <-. reflexivity.
Qed.
Lemma size_sub_lt : forall a b, 0 <= size_sub a b < 2 ^ 64.
Proof. intros. unfold size_sub. apply Z.mod_pos_bound. lia. Qed.
Lemma stored_nil : forall l, stored l [] = l.
Proof. now intros []. Qed.

Section Peers.
Variables (EI ER : env) (p : primitives) (sk_i sk_r : bytes -> bytes) (a b : trip) (m1 m2 m3 : bytes).
Hypothesis X : exchange EI ER p sk_i sk_r a b m1 m2 m3.

(** Message 2: the responder's identifier and EAD. *)
Lemma ids_2 : forall cr i cr0 r cr' pub, In (EvFetch OK cr) (ev2 b) -> travels cr i -> In (EvCredVerify cr0 r cr' pub) (ev2 a) ->
  travels cr0 i /\ (raw_kid cr = false -> same_identity cr cr0).
Proof.
  intros cr i cr0 r cr' pub HF HT HV.
  destruct (agree _ _ _ _ _ _ _ _ _ _ X) as (l1 & gx & x2 & d & crx & pubx & x3 & sig & ct & y2 & sigr & y3 & dr & crr & pubr & I & R & A).
  destruct A as (_ & _ & _ & _ & _ & _ & _ & _ & _ & _ & _ & _ & SR). destruct SR as (_ & _ & _ & _ & _ & PT & _).
  destruct X as (_ & CB & IA & RB & _ & [_ M2] & _). apply configured_fresh in CB.
  destruct IA as (_ & (nn & t & IA) & _). destruct RB as (_ & (nn' & n' & t' & RB) & _).
  pose proof (once_call KVerify _ _ _ _ _ _ _ (@m2_process_u EI KVerify nn m2) IA) as OV.
  pose proof (once_call KFetch _ _ _ _ _ _ _ (@m2_compose_u ER KFetch nn' n') RB) as OF.
  destruct I as (_ & _ & _ & _ & P & _). destruct R as (_ & (_ & K2 & _) & _ & _ & _ & _ & _ & _ & Q & _).
  destruct P as (_ & _ & _ & P4 & _ & _ & P7 & P8 & _). destruct Q as ((_ & _ & _ & _ & YK & _) & _ & _ & Q4 & _ & _ & Q7 & Q8 & _).
  pose proof (once_same _ _ _ _ OF HF Q4 eq_refl eq_refl) as EF. injection EF as EF. rewrite <- EF in Q7.
  pose proof (once_same _ _ _ _ OV HV P8 eq_refl eq_refl) as EV. injection EV as EV _ _ _. subst crx.
  rewrite <- PT, Q7, (@travels_sent ER _ _ HT) in P4. clear HV HF.
  assert (LP : zlen (r2_ptxt y2) < 2 ^ 64).
  { pose proof (zlen_wrapped (r2_gy y2) (r2_ptxt y2) (r2_ks y2) (expanded_len _ _ _ _ _ (zlen_nonneg _ _) YK)). rewrite <- Q8 in *. lia. }
  rewrite Q7, (@travels_sent ER _ _ HT), !zlen_app in LP.
  pose proof (zlen_nonneg _ (cbor i)). pose proof (zlen_nonneg _ (cbor (Bstr sigr))). pose proof (zlen_nonneg _ (eads (r2_ead y2))).
  pose proof (zlen_nonneg _ (cbor (cid_item (cid_rfc (c_cid (s1 b)))))).
  rewrite K2 in *.
  assert (CO : cid_ok (cid_rfc (c_cid (s0 b)))) by (eapply (cid_fits ER _ _ CB); [apply Z.le_refl|lia]).
  destruct (travels_read _ _ HT) as (iv & W & N); [lia|].
  rewrite (peer_id_read _ _ _ _ _ _ CO W P4) in P7. exact (N _ _ P7).
Qed.
Lemma eads_2 : labels_ok (ev2 b) -> (forall cr, In (EvFetch OK cr) (ev2 b) -> exists i, travels cr i) ->
  f_process (c_ead (s0 a)) <> None -> @cf_max_ead EI <> 0 -> received MSG_2 (ev2 a) = sent MSG_2 (ev2 b).
Proof.
  intros LO HT FP ME.
  destruct (agree _ _ _ _ _ _ _ _ _ _ X) as (l1 & gx & x2 & d & crx & pubx & x3 & sig & ct & y2 & sigr & y3 & dr & crr & pubr & I & R & A).
  destruct A as (_ & _ & _ & _ & _ & _ & _ & _ & _ & _ & _ & _ & SR). destruct SR as (_ & _ & _ & _ & _ & PT & _).
  destruct X as (CA & CB & IA & RB & _ & [_ M2] & _). apply configured_fresh in CB. apply configured_fresh in CA. pose proof (proj1 CB) as TB.
  destruct IA as (_ & (nn & t & IA) & _). destruct RB as (_ & (nn' & n' & t' & RB) & _).
  pose proof (once_call KProcess _ _ _ _ _ _ _ (@m2_process_u EI KProcess nn m2) IA) as OV.
  pose proof (once_call KCompose _ _ _ _ _ _ _ (@m2_compose_u ER KCompose nn' n') RB) as OF.
  destruct I as (_ & (_ & _ & K3 & _) & TA & _ & P & _). destruct R as (_ & (_ & K2 & _) & TB1 & _ & _ & _ & _ & _ & Q & _).
  specialize (TB1 TB).
  destruct P as (_ & _ & _ & P4 & _ & _ & _ & _ & P9 & P10 & _). destruct Q as ((_ & _ & _ & _ & YK & _) & _ & _ & Q4 & Q5 & _ & Q7 & Q8 & _ & _ & [_ QL]).
  destruct (HT _ Q4) as (i & HTi). rewrite TB1 in Q5. rewrite TA, stored_nil in P9.
  rewrite (@travels_sent ER _ _ HTi) in Q7.
  assert (LP : zlen (r2_ptxt y2) < 2 ^ 64).
  { pose proof (zlen_wrapped (r2_gy y2) (r2_ptxt y2) (r2_ks y2) (expanded_len _ _ _ _ _ (zlen_nonneg _ _) YK)). rewrite <- Q8 in *. lia. }
  rewrite Q7, !zlen_app in LP.
  pose proof (zlen_nonneg _ (cbor i)). pose proof (zlen_nonneg _ (cbor (Bstr sigr))). pose proof (zlen_nonneg _ (eads (r2_ead y2))).
  pose proof (zlen_nonneg _ (cbor (cid_item (cid_rfc (c_cid (s1 b)))))). pose proof (bstr_le sigr).
  rewrite K2 in *.
  assert (CO : cid_ok (cid_rfc (c_cid (s0 b)))) by (eapply (cid_fits ER _ _ CB); [apply Z.le_refl|lia]).
  destruct (travels_read _ _ HTi) as (iv & W & _); [lia|].
  assert (FI : Forall ead_fits (map ead_of (r2_ead y2))) by (apply (ead_fits_all _ (zlen (eads (r2_ead y2)))); [exact (labels_of _ _ _ LO Q5)|apply Z.le_refl|lia]).
  destruct (plaintext_2_rt (@cf_canon EI) (cid_rfc (c_cid (s0 b))) i iv sigr (map ead_of (r2_ead y2)) CO W) as (d' & D1 & _ & _ & _ & D5 & _);
    [lia|exact FI|unfold zlen in *; now rewrite map_length|].
  change (cbor_seq (flat_map ead_items (map ead_of (r2_ead y2)))) with (eads (r2_ead y2)) in D1. rewrite <- Q7, PT, P4 in D1. injection D1 as <-.
  rewrite (sent_composed _ _ _ OF Q5), <- D5, <- P9. destruct P10 as [G1 G2]. apply received_all; [exact OV|exact G2|]. intros NE. apply G1; [now rewrite K3|exact ME|exact NE].
Qed.

(** Message 3: the initiator's identifier and EAD. *)
Lemma ids_3 : forall cr i cr0 r cr' pub, In (EvFetch OK cr) (ev3 a) -> travels cr i -> In (EvCredVerify cr0 r cr' pub) (ev3 b) ->
  travels cr0 i /\ (raw_kid cr = false -> same_identity cr cr0).
Proof.
  intros cr i cr0 r cr' pub HF HT HV.
  destruct (agree _ _ _ _ _ _ _ _ _ _ X) as (l1 & gx & x2 & d & crx & pubx & x3 & sig & ct & y2 & sigr & y3 & dr & crr & pubr & I & R & A).
  destruct A as (_ & _ & _ & _ & _ & _ & _ & _ & _ & _ & _ & _ & SR). destruct SR as (_ & _ & _ & _ & _ & _ & _ & _ & _ & _ & _ & _ & PT & _).
  destruct X as (_ & _ & IA & RB & _). 
  destruct IA as (_ & _ & (nn & n & t & IA)). destruct RB as (_ & _ & (nn' & t' & RB)).
  pose proof (once_call KFetch _ _ _ _ _ _ _ (@m3_compose_u EI KFetch nn n) IA) as OF.
  pose proof (once_call KVerify _ _ _ _ _ _ _ (@m3_process_u ER KVerify nn' m3) RB) as OV.
  destruct I as (_ & _ & _ & _ & _ & _ & _ & _ & Q & _). destruct R as (_ & _ & _ & _ & _ & _ & _ & _ & _ & _ & _ & P & _).
  destruct P as (_ & _ & _ & P4 & P5 & P6 & P7 & _). destruct Q as (_ & Q2 & _ & _ & Q5 & _).
  pose proof (once_same _ _ _ _ OF HF Q2 eq_refl eq_refl) as EF. injection EF as EF. rewrite <- EF in Q5.
  pose proof (once_same _ _ _ _ OV HV P7 eq_refl eq_refl) as EV. injection EV as EV _ _ _. subst crr.
  rewrite PT, Q5, (@travels_sent EI _ _ HT) in P5. 
  assert (LP : zlen (r3_ptxt x3) < 2 ^ 64) by (rewrite <- PT, P4; apply size_sub_lt).
  rewrite Q5, (@travels_sent EI _ _ HT), !zlen_app in LP.
  pose proof (zlen_nonneg _ (cbor (Bstr sig))). pose proof (zlen_nonneg _ (eads (r3_ead x3))).
  destruct (travels_read _ _ HT) as (iv & W & N); [lia|].
  rewrite (peer_id_read_3 _ _ _ _ _ W P5) in P6. exact (N _ _ P6).
Qed.
Lemma eads_3 : labels_ok (ev3 a) -> (forall cr, In (EvFetch OK cr) (ev3 a) -> exists i, travels cr i) ->
  f_process (c_ead (s0 b)) <> None -> @cf_max_ead ER <> 0 -> received MSG_3 (ev3 b) = sent MSG_3 (ev3 a).
Proof.
  intros LO HT FP ME.
  destruct (agree _ _ _ _ _ _ _ _ _ _ X) as (l1 & gx & x2 & d & crx & pubx & x3 & sig & ct & y2 & sigr & y3 & dr & crr & pubr & I & R & A).
  destruct A as (_ & _ & _ & _ & _ & _ & _ & _ & _ & _ & _ & _ & SR). destruct SR as (_ & _ & _ & _ & _ & _ & _ & _ & _ & _ & _ & _ & PT & _).
  destruct X as (_ & _ & IA & RB & _). 
  destruct IA as (_ & _ & (nn & n & t & IA)). destruct RB as (_ & _ & (nn' & t' & RB)).
  pose proof (once_call KCompose _ _ _ _ _ _ _ (@m3_compose_u EI KCompose nn n) IA) as OF.
  pose proof (once_call KProcess _ _ _ _ _ _ _ (@m3_process_u ER KProcess nn' m3) RB) as OV.
  destruct I as (_ & _ & _ & _ & _ & ((_ & _ & _ & _ & TA) & _) & _ & _ & Q & _).
  destruct R as (_ & (_ & _ & K3 & _) & _ & _ & _ & _ & _ & _ & _ & ((_ & _ & _ & K4 & TB) & _) & _ & P & _).
  destruct P as (_ & _ & _ & P4 & P5 & _ & _ & P8 & P9 & _). destruct Q as (_ & Q2 & Q3 & _ & Q5 & _ & _ & _ & [_ QL]).
  destruct (HT _ Q2) as (i & HTi). rewrite TA in Q3. rewrite TB, stored_nil in P8. rewrite (@travels_sent EI _ _ HTi) in Q5.
  assert (LP : zlen (r3_ptxt x3) < 2 ^ 64) by (rewrite <- PT, P4; apply size_sub_lt).
  rewrite Q5, !zlen_app in LP.
  pose proof (zlen_nonneg _ (cbor i)). pose proof (zlen_nonneg _ (cbor (Bstr sig))). pose proof (zlen_nonneg _ (eads (r3_ead x3))). pose proof (bstr_le sig).
  destruct (travels_read _ _ HTi) as (iv & W & _); [lia|].
  assert (FI : Forall ead_fits (map ead_of (r3_ead x3))) by (apply (ead_fits_all _ (zlen (eads (r3_ead x3)))); [exact (labels_of _ _ _ LO Q3)|apply Z.le_refl|lia]).
  destruct (plaintext_3_rt (@cf_canon ER) i iv sig (map ead_of (r3_ead x3)) W) as (d' & D1 & _ & _ & D5 & _);
    [lia|exact FI|unfold zlen in *; now rewrite map_length|].
  change (cbor_seq (flat_map ead_items (map ead_of (r3_ead x3)))) with (eads (r3_ead x3)) in D1. rewrite <- Q5, <- PT, P5 in D1. injection D1 as <-.
  rewrite (sent_composed _ _ _ OF Q3), <- D5, <- P8. destruct P9 as [G1 G2]. apply received_all; [exact OV|exact G2|]. intros NE.
  apply G1; [now rewrite K4, K3|exact ME|exact NE].
Qed.
(** Message 4, sent by the responder right after the handshake. *)
Lemma eads_4 : forall nn n t m4 b4 e nn' t' a4 f sk sk', 
  @message_4_compose ER nn n (Wd (s3 b) t) = Ret (OK, m4) (Wd b4 (e ++ t)) ->
  @message_4_process EI nn' m4 (Wd (s3 a) t') = Ret OK (Wd a4 (f ++ t')) ->
  obeys p sk e -> obeys p sk' f -> zlen m4 < 2 ^ 32 -> labels_ok e ->
  f_process (c_ead (s0 a)) <> None -> @cf_max_ead EI <> 0 -> received MSG_4 f = sent MSG_4 e.
Proof.
  intros nn n t m4 b4 e nn' t' a4 f sk sk' H1 H2 OE OF' HM LO FP ME.
  destruct (peers_state _ _ _ _ _ _ _ _ _ _ X) as (th4 & prk4 & T1 & T2 & P1 & P2 & _ & _ & _ & _ & _ & _ & S1 & S2 & _).
  destruct (agree _ _ _ _ _ _ _ _ _ _ X) as (l1 & gx & x2 & d & crx & pubx & x3 & sig & ct & y2 & sigr & y3 & dr & crr & pubr & I & R & A).
  destruct I as (_ & (_ & _ & K1 & _) & _ & _ & _ & ((_ & _ & _ & K2 & _) & _) & _ & _ & _ & ((_ & _ & _ & K3 & TA) & _) & _).
  destruct R as (_ & _ & _ & _ & _ & _ & _ & _ & _ & _ & _ & _ & ((_ & _ & _ & _ & TB) & _) & _).
  destruct X as (_ & _ & _ & _ & _ & _ & _ & [_ CE] & _ & _ & _ & _ & _ & _ & SZ & _).
  pose proof (once_call KCompose _ _ _ _ _ _ _ (@m4_compose_u ER KCompose nn n) H1) as OF.
  pose proof (once_call KProcess _ _ _ _ _ _ _ (@m4_process_u EI KProcess nn' m4) H2) as OV.
  assert (SA : sizes_ok (the_suite (s3 a))) by now rewrite S1. assert (SB : sizes_ok (the_suite (s3 b))) by now rewrite S2.
  destruct (call_compose_4 _ _ _ _ _ _ _ H1 SB) as (e' & l & key & iv & ctx & E1 & (E2 & E2') & E3 & [_ E4] & E5 & E6). apply app_inv_tail in E1. subst e'.
  pose proof (sat_run _ _ _ _ _ _ _ (@run_process_4 EI nn' m4 (s3 a) t' (sizes_lens _ SA)) H2 eq_refl) as R'.
  destruct R' as (f' & key' & iv' & ct' & ptx & F1 & (F2 & F2') & F3 & F4 & F5 & F6 & _). cbn [w_tr] in F1. apply app_inv_tail in F1. subst f'.
  rewrite T2, P2, S2 in *. rewrite T1, P1, S1 in *.
  assert (key' = key) by now rewrite (ob_expand _ _ _ _ _ _ _ OE E2), (ob_expand _ _ _ _ _ _ _ OF' F2).
  assert (iv' = iv) by now rewrite (ob_expand _ _ _ _ _ _ _ OE E2'), (ob_expand _ _ _ _ _ _ _ OF' F2'). subst key' iv'.
  assert (ct' = ctx). { rewrite E6, one_bstr_rt in F3; [now injection F3|]. pose proof (bstr_le ctx). rewrite <- E6 in *. lia. } subst ct'.
  pose proof (ob_dec _ _ _ _ _ _ _ _ OF' F4) as D. rewrite (ob_enc _ _ _ _ _ _ _ _ OE E5), CE in D. injection D as <-.
  rewrite TB in E3.
  assert (FI : Forall ead_fits (map ead_of l)) by (apply (ead_fits_all _ (zlen (eads l))); [exact (labels_of _ _ _ LO E3)|apply Z.le_refl|rewrite F5; apply size_sub_lt]).
  rewrite (sent_composed _ _ _ OF E3). rewrite <- (plaintext_4_rt (@cf_canon EI) (map ead_of l) FI); [|unfold zlen in *; now rewrite map_length].
  destruct F6 as [G1 G2]. apply received_all; [exact OV|exact G2|]. intros NE. apply G1; [now rewrite K3, K2, K1|exact ME|exact NE].
Qed.
End Peers.

(** Message 1. *)
Lemma eads_1 : forall EI ER a0 a1 e nn n t b0 b1 f nn' t' m1,
  @configured EI a0 -> 
  @message_1_compose EI nn n (Wd a0 t) = Ret (OK, m1) (Wd a1 (e ++ t)) ->
  @message_1_process ER nn' m1 (Wd b0 t') = Ret OK (Wd b1 (f ++ t')) ->
  is_message m1 -> typed a0 e -> 0 <= cs_ecc (my_suite b0) -> f_process (c_ead b0) <> None ->
  received MSG_1 f = map (fun x => (fst x, Some (match snd x with Some v => v | None => [] end))) (sent MSG_1 e).
Proof.
  intros EI ER a0 a1 e nn n t b0 b1 f nn' t' m1 CA H1 H2 [_ HM] TY HE FP.
  apply configured_fresh in CA. pose proof (proj1 CA) as TA.
  pose proof (once_call KCompose _ _ _ _ _ _ _ (@m1_compose_u EI KCompose nn n) H1) as OF.
  pose proof (once_call KProcess _ _ _ _ _ _ _ (@m1_process_u ER KProcess nn' m1) H2) as OV.
  destruct (call_compose_1 _ _ _ _ _ _ _ H1) as (e' & l & gx & E1 & A & _). apply app_inv_tail in E1. subst e'.
  destruct (call_process_1 _ _ _ _ _ _ H2 HE) as (f' & F1 & B & _). apply app_inv_tail in F1. subst f'.
  destruct (message_1_read _ _ _ _ _ _ _ A TY TA HM (@cf_canon ER)) as (d & D1 & _ & _ & _ & _ & _ & D2 & _ & D3). rewrite D1 in B. cbn [fst snd] in B.
  destruct A as (_ & A2 & _). rewrite TA in A2. rewrite (sent_composed _ _ _ OF A2), map_map.
  destruct B as (_ & _ & _ & _ & _ & _ & _ & _ & _ & B10 & _ & _ & B13).
  rewrite (received_all _ _ (m1_ead d) OV).
  - rewrite D2. apply map_ext. intros [lab [z [b|]]]; unfold ead1_of, ead_of; cbn [tk_label tk_val zs_ptr zs_len fst snd]; [reflexivity|].
    do 2 f_equal. unfold take. now rewrite firstn_nil.
  - intros m' l' r I. now destruct (B13 _ _ _ I) as (_ & -> & ->).
  - intros NE. apply B10; [|exact FP]. apply D3. intros ->. apply NE. now destruct (m1_ead d).
Qed.

(** ** C38 *)
Section Macs.
Context {E : env}.
Lemma pos_of : forall s b, sizes_ok s -> 0 <= mac_length s b.
Proof. intros s b H. unfold sizes_ok, mac_length in *. destruct b; lia. Qed.
Lemma proves_split : forall t a b m th cr l mac sig, proves t ((m =? a) || (m =? b)) th cr l mac sig ->
  (In m [a; b] -> sig = mac) /\ (~ In m [a; b] -> signed t (cr_priv cr) (sig_input th cr l mac) sig).
Proof.
  intros t a b m th cr l mac sig H. unfold proves in H. destruct (Z.eqb_spec m a) as [->|A].
  { split; [now intros|]. intros N. destruct N. now left. }
  destruct (Z.eqb_spec m b) as [->|B]. { split; [now intros|]. intros N. destruct N. right. now left. }
  split; [intros [?|[?|[]]]; congruence|now intros].
Qed.
Lemma checks_split : forall t a b m pub th cr l mac sig, checks t ((m =? a) || (m =? b)) pub th cr l mac sig ->
  (In m [a; b] -> sig = mac) /\ (~ In m [a; b] -> verified t pub (sig_input th cr l mac) sig).
Proof.
  intros t a b m pub th cr l mac sig H. unfold checks in H. destruct (Z.eqb_spec m a) as [->|A].
  { split; [now intros|]. intros N. destruct N. now left. }
  destruct (Z.eqb_spec m b) as [->|B]. { split; [now intros|]. intros N. destruct N. right. now left. }
  split; [intros [?|[?|[]]]; congruence|now intros].
Qed.
Lemma mac_compose_2 : forall nn n c t m c' t', message_2_compose nn n (Wd c t) = Ret (OK, m) (Wd c' t') ->
  sizes_ok (the_suite c) -> zlen m < 2 ^ 32 ->
  exists e gy ptxt ks id sig cr l th prk context len mac, t' = e ++ t /\
    m = cbor (Bstr (gy ++ xor_bytes ptxt ks)) /\
    ptxt = cbor (cid_item (cid_rfc (c_cid c))) ++ id ++ cbor (Bstr sig) ++ eads l /\
    expanded e prk (info MAC_2 context len) len mac /\ zlen mac = len /\
    mac_rule (c_chosen_method c) [1; 3] (the_suite c) len /\
    (In (c_chosen_method c) [1; 3] -> sig = mac) /\
    (~ In (c_chosen_method c) [1; 3] -> signed e (cr_priv cr) (sig_input th cr l mac) sig).
Proof.
  intros nn n c t m c' t' H S M. destruct (call_compose_2 _ _ _ _ _ _ _ H S M) as (e & x & priv & sig & T & P & _).
  destruct P as ((_ & _ & _ & S4 & _) & _ & _ & _ & _ & P6 & P7 & P8 & _). apply proves_split in P6.
  do 13 eexists. split; [exact T|]. split; [exact P8|]. split; [exact P7|]. split; [exact S4|].
  split; [eapply expanded_len; [|exact S4]; now apply pos_of|]. split; [apply mac_len|exact P6].
Qed.
Lemma mac_process_2 : forall nn m c t c' t', message_2_process nn m (Wd c t) = Ret OK (Wd c' t') ->
  sizes_ok (the_suite c) -> is_message m -> c_tokens c = [] ->
  exists e, t' = e ++ t /\ (octets e -> exists gy ct ks id sig cr l th prk pub context len mac,
    carries m [Bstr (gy ++ ct)] /\
    carries (xor_bytes ct ks) (plaintext_2_items (cid_rfc (c_peer_cid c')) id sig (map ead_of l)) /\
    expanded e prk (info MAC_2 context len) len mac /\ zlen mac = len /\
    mac_rule (c_chosen_method c) [1; 3] (the_suite c) len /\
    (In (c_chosen_method c) [1; 3] -> sig = mac) /\
    (~ In (c_chosen_method c) [1; 3] -> verified e pub (sig_input th cr l mac) sig)).
Proof.
  intros nn m c t c' t' H S M HT. destruct (authentic_2 _ _ _ _ _ _ H S M HT) as (e & T & A). exists e. split; [exact T|].
  intros O. destruct (A O) as (x & ct & id & sig & cr0 & pub & A1 & _ & _ & (_ & _ & _ & S4 & _) & A5 & A6 & _ & _ & A9).
  apply checks_split in A9. rewrite A5 in A6. do 13 eexists. split; [exact A1|]. split; [exact A6|]. split; [exact S4|].
  split; [eapply expanded_len; [|exact S4]; now apply pos_of|]. split; [apply mac_len|exact A9].
Qed.
Lemma mac_compose_3 : forall nn n c t m c' t', message_3_compose nn n (Wd c t) = Ret (OK, m) (Wd c' t') ->
  sizes_ok (the_suite c) ->
  exists e key iv ct ptxt id sig cr l prk context len mac, t' = e ++ t /\
    m = cbor (Bstr ct) /\ encrypted e key iv (aad (th_of c)) ptxt ct /\
    ptxt = id ++ cbor (Bstr sig) ++ eads l /\
    expanded e prk (info MAC_3 context len) len mac /\ zlen mac = len /\
    mac_rule (c_chosen_method c) [2; 3] (the_suite c) len /\
    (In (c_chosen_method c) [2; 3] -> sig = mac) /\
    (~ In (c_chosen_method c) [2; 3] -> signed e (cr_priv cr) (sig_input (th_of c) cr l mac) sig).
Proof.
  intros nn n c t m c' t' H S. destruct (call_compose_3 _ _ _ _ _ _ _ H S) as (e & x & sig & ct & T & P & _).
  destruct P as ((_ & _ & _ & S4 & _) & _ & _ & P4 & P5 & P6 & P7 & _). apply proves_split in P4.
  do 13 eexists. split; [exact T|]. split; [exact P7|]. split; [exact P6|]. split; [exact P5|]. split; [exact S4|].
  split; [eapply expanded_len; [|exact S4]; now apply pos_of|]. split; [apply mac_len|exact P4].
Qed.
Lemma mac_process_3 : forall nn m c t c' t', message_3_process nn m (Wd c t) = Ret OK (Wd c' t') ->
  sizes_ok (the_suite c) -> is_message m -> c_tokens c = [] ->
  exists e, t' = e ++ t /\ (octets e -> exists key iv ct ptxt id sig cr l prk pub context len mac,
    carries m [Bstr ct] /\ decrypted e key iv (aad (th_of c)) ct ptxt /\
    carries ptxt (plaintext_3_items id sig (map ead_of l)) /\
    expanded e prk (info MAC_3 context len) len mac /\ zlen mac = len /\
    mac_rule (c_chosen_method c) [2; 3] (the_suite c) len /\
    (In (c_chosen_method c) [2; 3] -> sig = mac) /\
    (~ In (c_chosen_method c) [2; 3] -> verified e pub (sig_input (th_of c) cr l mac) sig)).
Proof.
  intros nn m c t c' t' H S M HT. destruct (authentic_3 _ _ _ _ _ _ H S M HT) as (_ & _ & e & T & A). exists e. split; [exact T|].
  intros O. destruct (A O) as (x & ct & id & sig & cr0 & pub & A1 & (_ & _ & _ & S4 & _) & A5 & A6 & _ & _ & A9).
  apply checks_split in A9. do 13 eexists. split; [exact A1|]. split; [exact A5|]. split; [exact A6|]. split; [exact S4|].
  split; [eapply expanded_len; [|exact S4]; now apply pos_of|]. split; [apply mac_len|exact A9].
Qed.

(** ** C39 *)
Lemma suite_values_take : forall c, 0 <= c_csuite_len c <= zlen (c_csuites c) ->
  suite_values c = map cs_value (take (c_csuite_len c) (c_csuites c)).
Proof.
  intros c H. unfold suite_values, take, zlen in *.
  assert (L : (Z.to_nat (c_csuite_len c) <= length (c_csuites c))%nat) by lia. clear H.
  generalize dependent (Z.to_nat (c_csuite_len c)). generalize (c_csuites c). clear. intros l n. revert l.
  induction n as [|n IH]; intros [|x l] H; try reflexivity; cbn [length] in H; [lia|].
  cbn [seq map firstn nth]. f_equal. rewrite <- seq_shift, map_map. cbn [nth]. apply IH. lia.
Qed.
Lemma last_take : forall (l : list csuite) n, 0 < n <= zlen l -> last (map cs_value (take n l)) 0 = cs_value (nth (Z.to_nat (n - 1)) l csuite0).
Proof.
  intros l n H. unfold take, zlen in *. replace (Z.to_nat n) with (S (Z.to_nat (n - 1))) by lia.
  assert (L : (Z.to_nat (n - 1) < length l)%nat) by lia. clear H. generalize dependent (Z.to_nat (n - 1)). clear. intros n. revert l.
  induction n as [|n IH]; intros [|x l] H; cbn [length] in H; try lia; [reflexivity|].
  change (firstn (S (S n)) (x :: l)) with (x :: firstn (S n) l). cbn [map nth]. rewrite <- (IH l) by lia.
  destruct l as [|y l]; [cbn [length] in H; lia|]. reflexivity.
Qed.
Lemma message_1_bytes : forall nn n c t m c' e, configured c -> message_1_compose nn n (Wd c t) = Ret (OK, m) (Wd c' (e ++ t)) ->
  exists gx, let suites := map cs_value (take (c_csuite_len c) (c_csuites c)) in
    made e (priv_of c') gx /\ zlen gx = cs_ecc (my_suite c) /\ last suites 0 = cs_value (my_suite c) /\ 1 <= zlen suites <= 3 /\
    m = cbor_seq (message_1_items (my_method c) suites gx (cid_rfc (c_cid c))
          (map (fun x => (fst x, Some (match snd x with Some v => v | None => [] end))) (sent MSG_1 e))).
Proof.
  intros nn n c t m c' e C H. apply configured_fresh in C. pose proof (once_call KCompose _ _ _ _ _ _ _ (@m1_compose_u E KCompose nn n) H) as O.
  destruct (call_compose_1 _ _ _ _ _ _ _ H) as (e' & l & gx & T & A & _). apply app_inv_tail in T. subst e'.
  destruct A as (A1 & A2 & A3 & _ & A5 & A6 & _ & A8 & _). destruct C as (C1 & _ & _ & _ & _ & _ & _ & _ & C9 & _).
  rewrite C1 in A2. rewrite (suite_values_take _ C9) in A3, A8. exists gx. cbv zeta. split; [exact A1|]. split; [exact A5|].
  split; [apply last_take; lia|]. split; [exact A8|]. rewrite A3, (sent_composed _ _ _ O A2), map_map. do 2 f_equal.
  apply map_ext. intros [lab [z [b|]]]; unfold ead1_of, ead_of; cbn [tk_label tk_val zs_ptr zs_len fst snd]; [reflexivity|].
  do 2 f_equal. unfold take. now rewrite firstn_nil.
Qed.
Definition valued (x : ead) : Prop := snd x <> None.
Lemma valued_map : forall l, Forall valued l -> map (fun x : ead => (fst x, Some (match snd x with Some v => v | None => [] end))) l = l.
Proof.
  induction 1 as [|[a [b|]] l H _ IH]; [reflexivity| |now destruct H]. cbn [map fst snd]. now rewrite IH.
Qed.
Lemma message_1_bytes_valued : forall nn n c t m c' e, configured c -> message_1_compose nn n (Wd c t) = Ret (OK, m) (Wd c' (e ++ t)) ->
  (forall x, In x (sent MSG_1 e) -> snd x <> None) ->
  exists gx, let suites := map cs_value (take (c_csuite_len c) (c_csuites c)) in
    made e (priv_of c') gx /\ zlen gx = cs_ecc (my_suite c) /\ last suites 0 = cs_value (my_suite c) /\ 1 <= zlen suites <= 3 /\
    m = cbor_seq (message_1_items (my_method c) suites gx (cid_rfc (c_cid c)) (sent MSG_1 e)).
Proof.
  intros nn n c t m c' e C H V. destruct (message_1_bytes _ _ _ _ _ _ _ C H) as (gx & A). rewrite valued_map in A; [now exists gx|].
  apply Forall_forall. exact V.
Qed.
End Macs.
Lemma eads_1_valued : forall EI ER a0 a1 e nn n t b0 b1 f nn' t' m1,
  @configured EI a0 -> 
  @message_1_compose EI nn n (Wd a0 t) = Ret (OK, m1) (Wd a1 (e ++ t)) ->
  @message_1_process ER nn' m1 (Wd b0 t') = Ret OK (Wd b1 (f ++ t')) ->
  is_message m1 -> typed a0 e -> 0 <= cs_ecc (my_suite b0) -> f_process (c_ead b0) <> None ->
  (forall x, In x (sent MSG_1 e) -> snd x <> None) ->
  received MSG_1 f = sent MSG_1 e.
Proof.
  intros EI ER a0 a1 e nn n t b0 b1 f nn' t' m1 A B C D F G H V. rewrite (eads_1 _ _ _ _ _ _ _ _ _ _ _ _ _ _ A B C D F G H).
  apply valued_map. apply Forall_forall. exact V.
Qed.

(** ** C40 *)
Lemma same_trans : forall a b c, same_identity a b -> same_identity b c -> same_identity a c.
Proof.
  intros [? ? []] [? ? []] [? ? []]; unfold same_identity; cbn [cr_body]; intros A B; try contradiction; try congruence;
  repeat match goal with H : _ /\ _ |- _ => destruct H end; subst;
  repeat split; try congruence; destruct (_ =? ENC_INT); congruence.
Qed.
Section Ids.
Variables (EI ER : env) (p : primitives) (sk_i sk_r : bytes -> bytes) (a b : trip) (m1 m2 m3 : bytes).
Hypothesis X : exchange EI ER p sk_i sk_r a b m1 m2 m3.
Lemma id_agreed_2 : forall cr i cr0 cr' pub, In (EvFetch OK cr) (ev2 b) -> travels cr i -> In (EvCredVerify cr0 OK cr' pub) (ev2 a) ->
  travels cr0 i /\ (raw_kid cr = false -> same_identity cr cr0) /\
  (raw_kid cr = false -> same_identity cr0 cr' -> id_bytes cr' = id_bytes cr /\ cred_bytes_of cr' = cred_bytes_of cr).
Proof.
  intros cr i cr0 cr' pub F T V. destruct (ids_2 _ _ _ _ _ _ _ _ _ _ X _ _ _ _ _ _ F T V) as [A B]. split; [exact A|]. split; [exact B|].
  intros R S. split; [symmetry; eapply same_id, same_trans; [apply B, R|exact S]|].
  destruct X as (_ & _ & _ & _ & _ & _ & _ & _ & _ & _ & _ & _ & HC & _). now destruct (HC _ _ _ _ F V).
Qed.
Lemma id_agreed_3 : forall cr i cr0 cr' pub, In (EvFetch OK cr) (ev3 a) -> travels cr i -> In (EvCredVerify cr0 OK cr' pub) (ev3 b) ->
  travels cr0 i /\ (raw_kid cr = false -> same_identity cr cr0) /\
  (raw_kid cr = false -> same_identity cr0 cr' -> id_bytes cr' = id_bytes cr /\ cred_bytes_of cr' = cred_bytes_of cr).
Proof.
  intros cr i cr0 cr' pub F T V. destruct (ids_3 _ _ _ _ _ _ _ _ _ _ X _ _ _ _ _ _ F T V) as [A B]. split; [exact A|]. split; [exact B|].
  intros R S. split; [symmetry; eapply same_id, same_trans; [apply B, R|exact S]|].
  destruct X as (_ & _ & _ & _ & _ & _ & _ & _ & _ & _ & _ & _ & _ & HC & _). now destruct (HC _ _ _ _ F V).
Qed.
End Ids.

(** ** C44 *)
Definition allowed (k : kind) (a : api) : nat :=
  match k, a with
  | KFetch, (AM2Compose _ _ | AM3Compose _ _) => 1
  | KVerify, (AM2Process _ _ | AM3Process _ _) => 1
  | KCompose, (AM1Compose _ _ | AM2Compose _ _ | AM3Compose _ _ | AM4Compose _ _) => 1
  | KProcess, (AM1Process _ _ | AM2Process _ _ | AM3Process _ _ | AM4Process _ _) => 1
  | _, _ => 0
  end.
Section Ask.
Context {E : env}.
Lemma msg_out_u : forall P n m, upto P n m -> upto P n (msg_out m).
Proof.
  intros P n m H w. specialize (H w). unfold msg_out, bind. destruct (m w) as [[r b] w'|]; [exact H|exact I].
Qed.
Lemma no_out_u : forall P n m, upto P n m -> upto P n (no_out m).
Proof. intros P n m H w. specialize (H w). unfold no_out, bind. destruct (m w) as [r w'|]; [exact H|exact I]. Qed.
Lemma cfg_u : forall P f, upto P 0 (cfg f).
Proof. intros P f w. unfold cfg, bind, getc, modify. destruct (f (w_ctx w)). exists []. split; [reflexivity|apply le_n]. Qed.
Lemma api_u : forall k a, upto (of_kind k) (allowed k a) (do_api a).
Proof.
  intros k a. destruct a; cbn [do_api]; try (destruct k; apply cfg_u).
  - apply msg_out_u. destruct k; apply (@m1_compose_u E).
  - apply no_out_u. destruct k; apply (@m1_process_u E).
  - apply msg_out_u. destruct k; apply (@m2_compose_u E).
  - apply no_out_u. destruct k; apply (@m2_process_u E).
  - apply msg_out_u. destruct k; apply (@m3_compose_u E).
  - apply no_out_u. destruct k; apply (@m3_process_u E).
  - apply msg_out_u. destruct k; apply (@m4_compose_u E).
  - apply no_out_u. destruct k; apply (@m4_process_u E).
  - apply msg_out_u. destruct k; apply (@export_u E).
  - apply no_out_u. destruct k; apply (@update_u E).
  - match goal with |- upto _ _ (bind (export_oscore_session ?n ?a ?b ?c ?d) _) => pose proof (@oscore_u E k n a b c d) as H end. intro w.
    specialize (H w). unfold bind. destruct (export_oscore_session _ _ _ _ _ w) as [[r o] w'|]; [|exact I].
    destruct k; exact H.
  - intro w. unfold bind, getc. destruct (error_get_code _ _). exists []. split; [reflexivity|apply Nat.le_0_l].
  - intro w. unfold bind, getc. destruct (error_get_cipher_suites _ _ _ _) as [[r o] q]. exists []. split; [reflexivity|apply Nat.le_0_l].
Qed.
Lemma asks : forall a w r w', do_api a w = Ret r w' -> exists e, w_tr w' = e ++ w_tr w /\
  (asked is_fetch e <= allowed KFetch a)%nat /\ (asked is_verify e <= allowed KVerify a)%nat /\
  (asked is_compose e <= allowed KCompose a)%nat /\ (asked is_process e <= allowed KProcess a)%nat.
Proof.
  intros a w r w' H.
  assert (A : forall k, exists e, w_tr w' = e ++ w_tr w /\ (length (filter (of_kind k) e) <= allowed k a)%nat).
  { intro k. pose proof (api_u k a w) as U. now rewrite H in U. }
  destruct (A KFetch) as (e & T & A1). exists e. split; [exact T|].
  assert (B : forall k, (length (filter (of_kind k) e) <= allowed k a)%nat).
  { intro k. destruct (A k) as (e' & T' & L). rewrite T in T'. apply app_inv_tail in T'. now subst e'. }
  assert (X : forall P Q, (forall x, P x = Q x) -> length (filter P e) = length (filter Q e)) by (intros P Q HPQ; now rewrite (filter_ext P Q HPQ)).
  unfold asked. rewrite (X is_fetch (of_kind KFetch)), (X is_verify (of_kind KVerify)), (X is_compose (of_kind KCompose)), (X is_process (of_kind KProcess)) by (now intros []).
  split; [apply B|]. split; [apply B|]. split; apply B.
Qed.
End Ask.
Lemma asks_once : forall (E : env) a w r w', do_api a w = Ret r w' -> exists e, w_tr w' = e ++ w_tr w /\
  (asked is_fetch e <= 1 /\ asked is_verify e <= 1 /\ asked is_compose e <= 1 /\ asked is_process e <= 1)%nat /\
  (asked is_fetch e <> 0%nat -> In (Spec.kind a) [Some M2c; Some M3c]) /\
  (asked is_verify e <> 0%nat -> In (Spec.kind a) [Some M2p; Some M3p]) /\
  (asked is_compose e <> 0%nat -> In (Spec.kind a) [Some M1c; Some M2c; Some M3c; Some M4c]) /\
  (asked is_process e <> 0%nat -> In (Spec.kind a) [Some M1p; Some M2p; Some M3p; Some M4p]).
Proof.
  intros E a w r w' H. destruct (asks _ _ _ _ H) as (e & T & A & B & C & D). exists e. split; [exact T|].
  assert (L : forall k, (allowed k a <= 1)%nat) by (intros []; destruct a; cbn [allowed]; lia).
  split; [repeat split; eapply Nat.le_trans; try eassumption; apply L|].
  split; [|split; [|split]]; intros N; destruct a; cbn [allowed Spec.kind] in *; try lia; cbn [In]; tauto.
Qed.
