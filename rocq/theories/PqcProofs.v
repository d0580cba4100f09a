(** Proofs about the post-quantum suite. *)
From Verif Require Import Bytes Facts Values Monad Psa SuiteCalls SuiteLogic SuitePqc PqcCalls PqcSpec SuiteSpec SuiteStore.

(** ** Events that hold until they are revoked *)
Section Last.
Context {E : Type} (P K : E -> Prop).
Definition since (h : list E) : Prop := exists h1 e h2, h = h1 ++ e :: h2 /\ P e /\ forall x, In x h2 -> ~ K x.
Lemma since_nil : ~ since [].
Proof. intros (h1 & e & h2 & Q & _). destruct h1; discriminate Q. Qed.
Lemma since_snoc h x : since (h ++ [x]) <-> P x \/ since h /\ ~ K x.
Proof.
  split.
  - intros (h1 & e & h2 & Q & PE & N). destruct h2 as [|y h2] using rev_ind.
    + apply app_inj_tail in Q. destruct Q as [_ <-]. now left.
    + rewrite app_comm_cons, app_assoc in Q. apply app_inj_tail in Q. destruct Q as [-> <-]. right. split.
      * exists h1, e, h2. repeat split; auto. intros z I. apply N, in_or_app. now left.
      * apply N, in_or_app. right. now left.
  - intros [PX|[(h1 & e & h2 & -> & PE & N) NK]].
    + exists h, x, []. repeat split; auto.
    + exists h1, e, (h2 ++ [x]). rewrite app_comm_cons, app_assoc. repeat split; auto.
      intros z I. apply in_app_or in I. destruct I as [I|[<-|[]]]; auto.
Qed.
End Last.

Notation ev := (qcall * hout)%type.
Lemma open_snoc h a o id : open_slot (h ++ [(a, o)]) id <->
  (exists raw k, a = QImport KT_MAKE_KEY_PAIR raw k /\ o = HO OK (Some id) [] []) \/ open_slot h id /\ a <> QDestroy (Some id).
Proof.
  set (P := fun e : ev => exists raw k, fst e = QImport KT_MAKE_KEY_PAIR raw k /\ snd e = HO OK (Some id) [] []).
  set (K := fun e : ev => fst e = QDestroy (Some id)).
  assert (EQ : forall g, open_slot g id <-> since P K g).
  { subst P K. intros g. split.
    - intros (h1 & h2 & raw & k & -> & N). exists h1, (QImport KT_MAKE_KEY_PAIR raw k, HO OK (Some id) [] []), h2.
      repeat split; [exists raw, k; split; reflexivity|]. intros [b q] I E. cbn in E. subst b. exact (N _ I).
    - intros (h1 & [b q] & h2 & -> & (raw & k & E1 & E2) & N). cbn in *. subst b q. exists h1, h2, raw, k. split; [reflexivity|].
      intros o' I. exact (N _ I eq_refl). }
  rewrite !EQ, since_snoc. unfold P, K. cbn. tauto.
Qed.
Lemma pair_snoc h a o id dk : holds_pair (h ++ [(a, o)]) id dk <->
  (exists np nu pk, a = QMkPair (Some id) np true nu true /\ o = HO OK None dk pk)
  \/ holds_pair h id dk /\ a <> QDestroy (Some id) /\ ~ (exists np pl nu ul, a = QMkPair (Some id) np pl nu ul /\ ho_ret o = OK).
Proof.
  set (P := fun e : ev => exists np nu pk, fst e = QMkPair (Some id) np true nu true /\ snd e = HO OK None dk pk).
  set (K := fun e : ev => fst e = QDestroy (Some id) \/ exists np pl nu ul, fst e = QMkPair (Some id) np pl nu ul /\ ho_ret (snd e) = OK).
  assert (EQ : forall g, holds_pair g id dk <-> since P K g).
  { subst P K. intros g. split.
    - intros (h1 & h2 & np & nu & pk & -> & N1 & N2). exists h1, (QMkPair (Some id) np true nu true, HO OK None dk pk), h2.
      repeat split; [do 3 eexists; split; reflexivity|]. intros [b q] I [E|(a1 & a2 & a3 & a4 & E & O)]; cbn in *; subst b; [exact (N1 _ I)|exact (N2 _ _ _ _ _ I O)].
    - intros (h1 & [b q] & h2 & -> & (np & nu & pk & E1 & E2) & N). cbn in *. subst b q. exists h1, h2, np, nu, pk. split; [reflexivity|]. split.
      + intros o' I. exact (N _ I (or_introl eq_refl)).
      + intros a1 a2 a3 a4 o' I O. apply (N _ I). right. do 4 eexists. split; [reflexivity|exact O]. }
  rewrite !EQ, since_snoc. unfold P, K. cbn. tauto.
Qed.
Lemma qimported_snoc h a o id kt raw : qimported (h ++ [(a, o)]) id kt raw <->
  (kt <> KT_MAKE_KEY_PAIR /\ exists k, a = QImport kt raw k /\ o = HO OK (Some id) [] [])
  \/ qimported h id kt raw /\ ~ (a = QDestroy (Some id) /\ ho_ret o = OK).
Proof.
  set (P := fun e : ev => exists k, fst e = QImport kt raw k /\ snd e = HO OK (Some id) [] []).
  set (K := fun e : ev => fst e = QDestroy (Some id) /\ ho_ret (snd e) = OK).
  assert (EQ : forall g, qimported g id kt raw <-> kt <> KT_MAKE_KEY_PAIR /\ since P K g).
  { subst P K. intros g. unfold qimported. split; (intros [M Q]; split; [exact M|]).
    - destruct Q as (h1 & h2 & k & -> & N). exists h1, (QImport kt raw k, HO OK (Some id) [] []), h2.
      repeat split; [exists k; split; reflexivity|]. intros [b q] I [E O]. cbn in *. subst b. exact (N _ I O).
    - destruct Q as (h1 & [b q] & h2 & -> & (k & E1 & E2) & N). cbn in *. subst b q. exists h1, h2, k. split; [reflexivity|].
      intros o' I O. exact (N _ I (conj eq_refl O)). }
  rewrite !EQ, since_snoc. unfold P, K. cbn. tauto.
Qed.

Section Pqc.
Context {L : libs}.
(** ** Every call *)
Lemma wp_put (F : ub -> Prop) h v s (Q : unit -> xst -> Prop) :
  Q tt (set_slots (set_nth (Z.to_nat (h - SLOT_BASE)) v (x_slots s)) s) -> wp F (put_slot h v) s Q.
Proof. exact (fun H => H). Qed.
(** The slot behind a handle. *)
Definition live (h : Z) (s : xst) : option slot :=
  if is_slot_handle h && sl_used (slot_at h s) then Some (slot_at h s) else None.
Lemma wp_from (F : ub -> Prop) h s (Q : option slot -> xst -> Prop) : Q (live h s) s -> wp F (slot_from_handle h) s Q.
Proof.
  intros H. unfold wp, slot_from_handle, live in *. unfold is_slot_handle in *.
  destruct ((SLOT_BASE <=? h) && (h <? SLOT_BASE + MAX_SLOTS)) eqn:E; cbn [negb andb] in *; [|exact H].
  replace (MAX_SLOTS <=? h - SLOT_BASE) with false by (unfold MAX_SLOTS in *; lia). cbn [orb].
  destruct (sl_used (slot_at h s)); exact H.
Qed.
Lemma wp_alloc (F : ub -> Prop) kt kid s (Q : Z * Z -> xst -> Prop) :
  (forall i, free_slot O (x_slots s) = Some i ->
     Q (OK, SLOT_BASE + Z.of_nat i) (set_slots (set_nth i (Sl true kt [] 0) (x_slots s)) s)) ->
  (free_slot O (x_slots s) = None -> Q (E_CRYPTO, kid) s) -> wp F (slot_alloc kt kid) s Q.
Proof. intros H1 H2. unfold wp, slot_alloc. destruct (free_slot O (x_slots s)); auto. Qed.
Ltac q_step :=
  lazymatch goal with
  | |- wp _ (slot_from_handle _) _ _ => apply wp_from
  | |- wp _ (put_slot _ _) _ _ => apply wp_put
  | |- wp _ (slot_alloc _ _) _ _ => apply wp_alloc; [intros ? ?|intros ?]
  | _ => wp_step
  end; cbv beta iota; wp_ok; cbv beta iota.
Ltac q_go := repeat q_step.
Definition slots_same (a : qcall) : bool :=
  match a with QImport _ _ _ | QDestroy _ | QMkPair _ _ _ _ _ => false | _ => true end.
Definition keys_same (a : qcall) : bool := match a with QImport _ _ _ | QDestroy _ => false | _ => true end.
Record qpost (a : qcall) (s : xst) (o : hout) (s' : xst) : Prop := {
  qp_log : exists l, x_log s' = l ++ x_log s /\ (ho_ret o = OK -> Forall (fun e => snd e = 0) l);
  qp_code : In (ho_ret o) [OK; E_INVALID_ARG; E_CRYPTO; E_TOO_SMALL];
  qp_arg : ho_ret o = E_INVALID_ARG -> s' = s;
  qp_small : ho_ret o = E_TOO_SMALL -> s' = s;
  qp_slots : slots_same a = true -> x_slots s' = x_slots s;
  qp_keys : keys_same a = true -> x_keys s' = x_keys s;
  qp_rest : x_op s' = x_op s /\ x_pk s' = x_pk s
}.
Ltac qp_tac :=
  constructor;
  [ SuiteProofs.po_log | cbn; tauto | cbn; first [discriminate | reflexivity]
  | cbn; first [discriminate | reflexivity] | cbn; first [discriminate | reflexivity]
  | cbn; first [discriminate | reflexivity] | split; reflexivity ].
Lemma qrun_post a s : wp (fun _ => False) (qrun a) s (qpost a s).
Proof.
  destruct a; unfold qrun, out1, outk, out2; q_go. 
  all: try (qp_tac; fail).
  rewrite orb_true_r in *. discriminate.
Qed.
Lemma qrun_ok a s : exists o s', qrun a s = XRet o s' /\ qpost a s o s'.
Proof. pose proof (qrun_post a s) as H. unfold wp in H. destruct (qrun a s) as [o s'|]; [eauto|destruct H]. Qed.
Lemma qrun_post' a s o s' : qrun a s = XRet o s' -> qpost a s o s'.
Proof. intros E. destruct (qrun_ok a s) as (o1 & s1 & E1 & P). rewrite E in E1. injection E1 as <- <-. exact P. Qed.

(** ** Slots and keys *)
Lemma q_import_spec kt raw kid s o s' : qrun (QImport kt raw kid) s = XRet o s' ->
  ho_1 o = [] /\ ho_2 o = [] /\
  ((ho_ret o <> OK /\ x_keys s' = x_keys s /\ x_slots s' = x_slots s /\ (ho_kid o = Some 0 \/ kid = None))
   \/ (kt = KT_MAKE_KEY_PAIR /\ x_keys s' = x_keys s /\ exists i, ho_ret o = OK /\ ho_kid o = Some (SLOT_BASE + Z.of_nat i)
        /\ free_slot O (x_slots s) = Some i /\ x_slots s' = set_nth i (Sl true kt [] 0) (x_slots s))
   \/ (kt <> KT_MAKE_KEY_PAIR /\ x_slots s' = x_slots s /\ exists a id, ho_ret o = OK /\ ho_kid o = Some id /\ q_attrs kt (zlen raw) = Some a
        /\ import_ok a raw = true /\ id = x_fresh (x_log s) (map fst (x_keys s)) /\ zlen (x_keys s) < KEY_IDS
        /\ x_keys s' = (id, PK a raw) :: x_keys s)).
Proof.
  wp_start. unfold qrun, outk. q_go; try exact I; cbn [ho_1 ho_2 ho_ret ho_kid]; (split; [reflexivity|]; split; [reflexivity|]);
    try (left; repeat apply conj; auto; discriminate).
  - right. left. split; [lia|]. split; [reflexivity|]. eexists. repeat apply conj; [reflexivity|reflexivity|eassumption|reflexivity].
  - right. right. split; [lia|]. split; [reflexivity|]. do 2 eexists.
    repeat apply conj; [reflexivity|reflexivity|reflexivity|eassumption|reflexivity| |reflexivity].
    match goal with H : negb _ = false |- _ => apply negb_false_iff, Z.ltb_lt in H; exact H end.
Qed.
Lemma q_destroy_spec kid s o s' : qrun (QDestroy kid) s = XRet o s' ->
  (kid = None /\ ho_ret o <> OK /\ s' = s)
  \/ exists id, kid = Some id /\ ho_kid o = Some 0 /\
     ((is_slot_handle id = true /\ ho_ret o = OK /\ x_keys s' = x_keys s
       /\ x_slots s' = if sl_used (slot_at id s) then set_nth (Z.to_nat (id - SLOT_BASE)) slot0 (x_slots s) else x_slots s)
      \/ (is_slot_handle id = false /\ x_slots s' = x_slots s /\
          (ho_ret o <> OK /\ x_keys s' = x_keys s \/ ho_ret o = OK /\ x_keys s' = drop_key id (x_keys s)
           \/ ho_ret o = OK /\ id = 0 /\ x_keys s' = x_keys s))).
Proof.
  wp_start. unfold qrun, outk. q_go; try exact I; cbn [ho_1 ho_2 ho_ret ho_kid].
  - right. eexists. split; [reflexivity|]. split; [reflexivity|]. left. unfold live in *.
    destruct (is_slot_handle z); [|discriminate]. destruct (sl_used (slot_at z s)); [|discriminate]. repeat apply conj; reflexivity.
  - right. eexists. split; [reflexivity|]. split; [reflexivity|]. left. unfold live in *.
    match goal with H : is_slot_handle z = true |- _ => rewrite H in * end.
    destruct (sl_used (slot_at z s)); [discriminate|]. repeat apply conj; reflexivity.
  - right. eexists. split; [reflexivity|]. split; [reflexivity|]. right. split; [assumption|]. split; [reflexivity|]. left. split; [discriminate|reflexivity].
  - right. eexists. split; [reflexivity|]. split; [reflexivity|]. right. split; [assumption|]. split; [reflexivity|]. right. right.
    split; [reflexivity|]. split; [lia|reflexivity].
  - right. eexists. split; [reflexivity|]. split; [reflexivity|]. right. split; [assumption|]. split; [reflexivity|]. right. left. split; reflexivity.
  - right. eexists. split; [reflexivity|]. split; [reflexivity|]. right. split; [assumption|]. split; [reflexivity|]. left. split; [discriminate|reflexivity].
  - left. repeat apply conj; [reflexivity|discriminate|reflexivity].
Qed.
Lemma q_mkpair_spec kid np pl nu ul s o s' : qrun (QMkPair kid np pl nu ul) s = XRet o s' ->
  x_keys s' = x_keys s /\
  ((ho_ret o <> OK /\ x_slots s' = x_slots s)
   \/ exists id n u v l, kid = Some id /\ np = Some n /\ nu = Some u /\ pl = true /\ ul = true /\ live id s = Some v
      /\ DK_LEN <= n /\ EK_LEN <= u /\ o = HO OK None (snd (x_kem_pair l)) (fst (x_kem_pair l))
      /\ x_slots s' = set_nth (Z.to_nat (id - SLOT_BASE)) (Sl true (sl_type v) (arr_read DK_LEN (snd (x_kem_pair l))) DK_LEN) (x_slots s)).
Proof.
  wp_start. unfold qrun, out2. q_go; try exact I; cbn [ho_1 ho_2 ho_ret ho_kid fst snd]; (split; [reflexivity|]);
    try (left; split; [discriminate|reflexivity]).
  right. do 4 eexists. exists (x_log s). destruct pl, ul; rewrite ?orb_true_r in *; try discriminate.
  repeat apply conj; try reflexivity; try eassumption; lia.
Qed.

(** ** The slots over histories *)
Definition slot_inv (h : list (qcall * hout)) (id : Z) (v : slot) : Prop :=
  (v = slot0 /\ ~ open_slot h id /\ forall dk, ~ holds_pair h id dk)
  \/ (v = Sl true KT_MAKE_KEY_PAIR [] 0 /\ open_slot h id /\ forall dk, ~ holds_pair h id dk)
  \/ exists dk, v = Sl true KT_MAKE_KEY_PAIR dk DK_LEN /\ open_slot h id /\ zlen dk = DK_LEN
       /\ forall d, holds_pair h id d <-> d = dk.
Lemma slot_frame h id v a o : slot_inv h id v ->
  (forall raw k, a = QImport KT_MAKE_KEY_PAIR raw k -> o <> HO OK (Some id) [] []) -> a <> QDestroy (Some id) ->
  (forall np pl nu ul, a = QMkPair (Some id) np pl nu ul -> ho_ret o <> OK) -> slot_inv (h ++ [(a, o)]) id v.
Proof.
  intros I N1 N2 N3.
  assert (O : open_slot (h ++ [(a, o)]) id <-> open_slot h id).
  { rewrite open_snoc. split; [intros [(raw & k & E & F)|[H _]]; [destruct (N1 _ _ E F)|exact H]|tauto]. }
  assert (H : forall dk, holds_pair (h ++ [(a, o)]) id dk <-> holds_pair h id dk).
  { intros dk. rewrite pair_snoc. split.
    - intros [(np & nu & pk & E & F)|[G _]]; [|exact G]. subst o. destruct (N3 _ _ _ _ E eq_refl).
    - intros G. right. split; [exact G|]. split; [exact N2|]. intros (np & pl & nu & ul & E & F). exact (N3 _ _ _ _ E F). }
  destruct I as [(E & N & M)|[(E & N & M)|(dk & E & N & Z & M)]].
  - left. rewrite O. repeat apply conj; auto. intros dk G. apply H in G. exact (M _ G).
  - right. left. rewrite O. repeat apply conj; auto. intros dk G. apply H in G. exact (M _ G).
  - right. right. exists dk. rewrite O. repeat apply conj; auto. intros d. now rewrite H.
Qed.
Definition slotted (h : list (qcall * hout)) (s : xst) : Prop :=
  exists u v, x_slots s = [u; v] /\ slot_inv h SLOT_BASE u /\ slot_inv h (SLOT_BASE + 1) v.
Lemma slot_cases id : is_slot_handle id = true -> id = SLOT_BASE \/ id = SLOT_BASE + 1.
Proof. unfold is_slot_handle, MAX_SLOTS. intros H. apply andb_true_iff in H. lia. Qed.
Lemma slot_new h id raw k o : slot_inv h id slot0 -> o = HO OK (Some id) [] [] ->
  slot_inv (h ++ [(QImport KT_MAKE_KEY_PAIR raw k, o)]) id (Sl true KT_MAKE_KEY_PAIR [] 0).
Proof.
  intros [(_ & N & M)|[(E & _)|(dk & E & _)]] ->; try discriminate. right. left. split; [reflexivity|]. split.
  - apply open_snoc. left. eauto.
  - intros dk H. apply pair_snoc in H. destruct H as [(? & ? & ? & E & _)|[H _]]; [discriminate|exact (M _ H)].
Qed.
Lemma slot_gone h id o : slot_inv (h ++ [(QDestroy (Some id), o)]) id slot0.
Proof.
  left. split; [reflexivity|]. split.
  - rewrite open_snoc. intros [(? & ? & E & _)|[_ N]]; [discriminate|now apply N].
  - intros dk. rewrite pair_snoc. intros [(? & ? & ? & E & _)|[_ [N _]]]; [discriminate|now apply N].
Qed.
Lemma slot_paired h id v dk pk np nu : slot_inv h id v -> sl_used v = true -> zlen dk = DK_LEN ->
  slot_inv (h ++ [(QMkPair (Some id) np true nu true, HO OK None dk pk)]) id (Sl true (sl_type v) dk DK_LEN).
Proof.
  intros I U Z.
  assert (O : open_slot h id /\ sl_type v = KT_MAKE_KEY_PAIR).
  { destruct I as [(-> & _)|[(-> & N & M)|(d & -> & N & _)]]; [discriminate U| |]; split; auto. }
  destruct O as [O ->]. right. right. exists dk. split; [reflexivity|]. split; [|split; [exact Z|]].
  - apply open_snoc. right. split; [exact O|discriminate].
  - intros d. rewrite pair_snoc. split.
    + intros [(? & ? & ? & _ & [= ->])|[_ [_ N]]]; [reflexivity|]. destruct N. do 4 eexists. split; reflexivity.
    + intros ->. left. eauto.
Qed.
Lemma slotted_step (QZ : qsized L) h s a o s' : slotted h s -> qrun a s = XRet o s' -> slotted (h ++ [(a, o)]) s'.
Proof.
  intros (u & v & E & I & J) R.
  assert (FR : x_slots s' = x_slots s -> (forall raw k, a = QImport KT_MAKE_KEY_PAIR raw k -> ho_ret o <> OK) ->
    (forall id, a = QDestroy (Some id) -> is_slot_handle id = false) ->
    (forall np pl nu ul id, a = QMkPair id np pl nu ul -> ho_ret o <> OK) -> slotted (h ++ [(a, o)]) s').
  { intros ES N1 N2 N3. exists u, v. rewrite ES. repeat apply conj; auto; apply slot_frame; auto.
    all: try (intros raw k X ->; exact (N1 _ _ X eq_refl)).
    all: try (intros np pl nu ul X; exact (N3 _ _ _ _ _ X)).
    all: intros X; apply N2 in X; discriminate X. }
  assert (SM : slots_same a = true -> slotted (h ++ [(a, o)]) s').
  { intros X. apply FR; [exact (qp_slots _ _ _ _ (qrun_post' _ _ _ _ R) X)| | |]; intros; subst a; discriminate X. }
  destruct a as [kt raw kid|kid|kid np pl nu ul| | | | | | | | |]; try exact (SM eq_refl); clear SM.
  - destruct (q_import_spec _ _ _ _ _ _ R) as (O1 & O2 & [(O & EK & ES & _)|[(-> & EK & i & O & OK_ & F & ES)|(N & ES & _)]]).
    + apply FR; auto; discriminate.
    + rewrite E in F, ES. cbn [free_slot] in F. unfold slotted. rewrite ES.
      destruct o as [r k o1 o2]. cbn [ho_ret ho_kid ho_1 ho_2] in *. subst r k o1 o2.
      destruct (sl_used u) eqn:U; [destruct (sl_used v) eqn:V; [discriminate F|]|]; injection F as <-; cbn [set_nth Z.of_nat].
      * do 2 eexists. split; [reflexivity|]. split.
        -- apply slot_frame; auto; discriminate.
        -- apply slot_new; [|reflexivity]. destruct J as [(-> & J)|[(-> & _)|(d & -> & _)]]; try discriminate V. left. tauto.
      * do 2 eexists. split; [reflexivity|]. split.
        -- rewrite Z.add_0_r. apply slot_new; [|reflexivity]. destruct I as [(-> & I)|[(-> & _)|(d & -> & _)]]; try discriminate U. left. tauto.
        -- apply slot_frame; auto; discriminate.
    + apply FR; auto; try discriminate. intros r k [= X _]. contradiction.
  - destruct (q_destroy_spec _ _ _ _ R) as [(-> & O & ->)|(id & -> & _ & [(SH & O & EK & ES)|(SH & ES & _)])].
    + apply FR; auto; try discriminate.
    + unfold slotted. rewrite ES, E. unfold slot_at. rewrite E. destruct (slot_cases _ SH) as [-> | ->].
      * rewrite Z.sub_diag. cbn [Z.to_nat nth set_nth]. exists slot0, v. split; [|split].
        -- destruct (sl_used u) eqn:U; [reflexivity|]. destruct I as [(-> & I)|[(-> & _)|(d & -> & _)]]; try discriminate U; reflexivity.
        -- apply slot_gone.
        -- apply slot_frame; auto; discriminate.
      * replace (SLOT_BASE + 1 - SLOT_BASE) with 1 by lia. change (Z.to_nat 1) with 1%nat. cbn [nth set_nth]. exists u, slot0. split; [|split].
        -- destruct (sl_used v) eqn:V; [reflexivity|]. destruct J as [(-> & J)|[(-> & _)|(d & -> & _)]]; try discriminate V; reflexivity.
        -- apply slot_frame; auto; discriminate.
        -- apply slot_gone.
    + apply FR; auto; try discriminate. intros i [= <-]. exact SH.
  - destruct (q_mkpair_spec _ _ _ _ _ _ _ _ R) as (EK & [(O & ES)|(id & n & m & w & l & -> & -> & -> & -> & -> & LV & _ & _ & -> & ES)]).
    + apply FR; auto; discriminate.
    + pose proof (proj2 (qz_pair _ QZ l)) as ZD. rewrite arr_read_exact in ES by exact ZD. unfold slotted. rewrite ES, E.
      unfold live in LV. destruct (is_slot_handle id) eqn:SH; [|discriminate]. cbn [andb] in LV.
      destruct (sl_used (slot_at id s)) eqn:US; [|discriminate]. injection LV as <-. unfold slot_at in *. rewrite E in *.
      destruct (slot_cases _ SH) as [-> | ->].
      * rewrite Z.sub_diag in *. cbn [Z.to_nat nth set_nth] in *. do 2 eexists. split; [reflexivity|]. split; [now apply slot_paired|].
        apply slot_frame; auto; discriminate.
      * replace (SLOT_BASE + 1 - SLOT_BASE) with 1 in * by lia. change (Z.to_nat 1) with 1%nat in *. cbn [nth set_nth] in *.
        do 2 eexists. split; [reflexivity|]. split; [|now apply slot_paired].
        apply slot_frame; auto; discriminate.
Qed.
End Pqc.
