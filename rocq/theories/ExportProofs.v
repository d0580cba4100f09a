(** The exporter: label policy, frame, failures, and who may export. *)
From Verif Require Import Monad Api Common Msg1 Msg2 Msg3 Msg4 Exporter History Spec Rfc Uses
  Conform Wire Facts Logic Sym HistoryProofs SessionProofs CborProofs RfcProofs Steps Steps2 Steps3 Run2 Run2p Run4
  Sessions Agree Live Pres Policy.

(** ** Labels *)
Lemma label_allowed_iff : forall l, label_allowed l = true <-> l = 0 \/ l = 1 \/ 32768 <= l <= 65535.
Proof. intro l. unfold label_allowed. rewrite !orb_true_iff, andb_true_iff, !Z.eqb_eq, !Z.leb_le. tauto. Qed.

Section Export.
Context {E : env}.
Lemma export_label_refused : forall nn label n w, ~ public_label label ->
  exists r, do_api (AExport nn label n) w = Ret (r, OBytes []) w /\ r <> OK.
Proof.
  intros nn label n w H. cbn [do_api]. unfold msg_out, export_prk_exporter, bind, ret.
  destruct (_ || _); [exists E_INVALID_ARG; split; [reflexivity|discriminate]|].
  destruct (label_allowed label) eqn:L; [apply label_allowed_iff in L; contradiction|].
  exists E_BAD_STATE. split; [reflexivity|discriminate].
Qed.

(** ** Frame *)
Lemma only_prk_refl : forall c, only_prk c c.
Proof. intros []. eexists. eexists. reflexivity. Qed.

(** How a derivation into the context can end: untouched, done, or spoilt by a failing expand
    callback. *)
Definition spoilt (c c' : ctx) (t : list event) : Prop :=
  exists q kid i n r o, c' = set_prk q c /\ In (EvExpand kid i n r o) t /\ r <> OK.
Definition derived (c c' : ctx) (t : list event) (label : Z) (cx : bytes) : Prop :=
  exists o, c' = set_prk_state PRK_OUT (set_prk (blit (c_prk c) o) c) /\ zlen o <= c_prk_len c /\
    exists kid, with_key t (EvExpand kid (enc_info label cx (u32 (cs_hash (the_suite c)))) (c_prk_len c) OK o) kid KT_EXPAND (prk_of c).
Lemma all_into_prk : forall len label context c t cx, reads context c cx ->
  sat Any (kdf_into_prk len label context) (Wd c t) (fun r w' => exists t', w_tr w' = t' ++ t /\
    (r <> OK /\ w_ctx w' = c \/ r <> OK /\ spoilt c (w_ctx w') t' \/ r = OK /\ derived c (w_ctx w') t' label cx)).
Proof.
  intros len label context c t cx Hc. unfold kdf_into_prk. apply sat_bind, sy_get_suite. intros _. cbv beta.
  apply sat_bind, sy_alloc. intros ok. cs. destruct ok; cbn [negb]; [|apply sat_ret; eexists [_]; split; [reflexivity|left; split; [discriminate|reflexivity]]].
  apply sat_bind. eapply sat_conseq; [apply Hc|]. intros y w [-> ->]. cbv beta.
  destruct (fits len _) as [inf|] eqn:F.
  2:{ apply sat_bind, sy_free, sat_ret. eexists [_;_]. split; [reflexivity|left; split; [discriminate|reflexivity]]. }
  apply fits_some in F as [-> _]. apply sat_bind, sy_get_prk. intros _. cs. apply sat_bind, sy_import. intros r kid. cs.
  destruct (r =? OK) eqn:Er; cbn [negb].
  2:{ apply sat_bind, sy_free, sat_ret. eexists [_;_;_]. split; [reflexivity|left; split; [discriminate|reflexivity]]. }
  apply sat_bind, sat_getc. cs. apply sat_bind, sy_expand. intros r2 out Lo. cs. apply sat_bind, sy_put_prk. intros _. cs.
  apply sat_bind, sy_destroy. intros r3. cs. apply sat_bind, sy_free. cs. apply Z.eqb_eq in Er. subst r.
  destruct (r2 =? OK) eqn:Er2; cbn [negb].
  2:{ apply sat_ret. eexists [_;_;_;_;_]. split; [reflexivity|right; left]. apply Z.eqb_neq in Er2. split; [discriminate|].
      eexists _, _, _, _, _, _. split; [reflexivity|]. split; [right; right; left; reflexivity|exact Er2]. }
  apply Z.eqb_eq in Er2. subst r2. apply sat_bind, sat_modify. cs. apply sat_ret. eexists [_;_;_;_;_]. split; [reflexivity|]. right. right.
  split; [reflexivity|]. eexists. split; [reflexivity|]. split; [exact Lo|]. eexists. keyed.
Qed.
Lemma all_prk_out : forall c t,
  sat Any compute_prk_out (Wd c t) (fun r w' => exists t', w_tr w' = t' ++ t /\
    (r <> OK /\ w_ctx w' = c \/ r <> OK /\ spoilt c (w_ctx w') t' \/
     r = OK /\ c_th_state c = TH_4 /\ derived c (w_ctx w') t' L_PRK_OUT (th_of c))).
Proof.
  intros c t. unfold compute_prk_out. apply sat_bind, sat_getc. cs. destruct (_ || _) eqn:G.
  { apply sat_ret. exists []. split; [reflexivity|]. left. split; [discriminate|reflexivity]. }
  apply sat_bind, sy_get_suite. intros _. cs. eapply sat_conseq; [apply all_into_prk, reads_th|].
  intros r w (t' & T & HH). exists t'. split; [exact T|]. apply orb_false_iff in G as [G1 G2].
  apply negb_false_iff, Z.eqb_eq in G1, G2. destruct HH as [HH|[HH|[HA HB]]]; auto.
Qed.

(** The part of an export after PRK_out is there leaves the context alone. *)
Definition same (c : ctx) := fun c' : ctx => c' = c.


(** Everything an export can do. *)
Lemma all_export : forall nn label n c t,
  sat Any (export_prk_exporter nn label n) (Wd c t) (fun x w' => exists t', w_tr w' = t' ++ t /\
    (fst x <> OK /\ w_ctx w' = c \/
     fst x <> OK /\ c_prk_state c = PRK_4E3M /\ spoilt c (w_ctx w') t' \/
     c_prk_state c = PRK_4E3M /\ c_th_state c = TH_4 /\ derived c (w_ctx w') t' L_PRK_OUT (th_of c) \/
     c_prk_state c <> PRK_4E3M /\ PRK_4E3M <= c_prk_state c /\ w_ctx w' = c)).
Proof.
  intros nn label n c t. unfold export_prk_exporter.
  destruct (_ || _). { apply sat_ret. exists []. split; [reflexivity|]. left. split; [discriminate|reflexivity]. }
  destruct (negb _). { apply sat_ret. exists []. split; [reflexivity|]. left. split; [discriminate|reflexivity]. }
  apply sat_bind, sat_getc. cs.
  destruct (_ || _) eqn:G. { apply sat_ret. exists []. split; [reflexivity|]. left. split; [discriminate|reflexivity]. }
  apply orb_false_iff in G as [_ G2]. apply Z.ltb_ge in G2.
  apply sat_bind, sy_get_suite. intros _. cs. apply sat_bind.
  apply sat_conseq with (P := fun r w' => exists t', w_tr w' = t' ++ t /\
    (r <> OK /\ w_ctx w' = c \/
     r <> OK /\ c_prk_state c = PRK_4E3M /\ spoilt c (w_ctx w') t' \/
     r = OK /\ c_prk_state c = PRK_4E3M /\ c_th_state c = TH_4 /\ derived c (w_ctx w') t' L_PRK_OUT (th_of c) \/
     r = OK /\ c_prk_state c <> PRK_4E3M /\ w_ctx w' = c)).
  { destruct (c_prk_state c =? PRK_4E3M) eqn:S.
    - apply Z.eqb_eq in S. eapply sat_conseq; [apply all_prk_out|]. intros r w (t' & T & H). exists t'. split; [exact T|].
      destruct H as [H|[[H1 H2]|(H1 & H2 & H3)]]; [left; exact H|right; left; auto|right; right; left; auto].
    - apply Z.eqb_neq in S. apply sat_ret. exists []. split; [reflexivity|]. right. right. right. auto. }
  intros r w (t1 & T1 & H). destruct (r =? OK) eqn:Er; cbn [negb].
  2:{ apply Z.eqb_neq in Er. apply sat_ret. exists t1. split; [exact T1|]. cbn [fst].
      destruct H as [H|[H|[(X & _)|(X & _)]]]; [left; split; [discriminate|apply H]|right; left; split; [discriminate|apply H]|contradiction|contradiction]. }
  apply Z.eqb_eq in Er. 
  match goal with |- sat Any ?m w _ => assert (K1 : kp m) by (pose proof prk_exporter_kp; kp_auto; auto);
    assert (K2 : pr (same (w_ctx w)) m) by pr_auto fail end.
  specialize (K1 w). specialize (K2 w eq_refl). unfold sat in *.
  match goal with |- match ?x with _ => _ end => destruct x as [a w'|u]; [|exact I] end.
  destruct K1 as [[t2 T2] _]. unfold same in K2. exists (t2 ++ t1). split; [now rewrite T2, T1, app_assoc|]. rewrite K2.
  destruct H as [[X _]|[[X _]|[(_ & X & Y & Z0)|(_ & X & Y)]]]; [contradiction|contradiction| |].
  - right. right. left. split; [exact X|]. split; [exact Y|]. destruct Z0 as (o & A & B & kid & C). exists o. split; [exact A|]. split; [exact B|].
    exists kid. now apply with_key_l.
  - right. right. right. auto.
Qed.

Lemma set_prk_only : forall c q, only_prk c (set_prk q c).
Proof. intros c q. exists q, (c_prk_state c). now destruct c. Qed.
Lemma export_only_prk : forall nn label n w r w', do_api (AExport nn label n) w = Ret r w' ->
  only_prk (w_ctx w) (w_ctx w') /\ (c_prk_state (w_ctx w) = PRK_OUT -> w_ctx w' = w_ctx w) /\
  (fst r = OK -> PRK_4E3M <= c_prk_state (w_ctx w) /\ (c_prk_state (w_ctx w) = PRK_4E3M -> c_prk_state (w_ctx w') = PRK_OUT)).
Proof.
  intros nn label n [c t] r w' R. cbn [do_api] in R. unfold msg_out in R. apply bind_inv in R as ([v b] & w1 & R1 & R). 
  injection R as <- <-. cbn [fst]. destruct (sat_run _ _ _ _ _ _ _ (all_export nn label n c t) R1) as (t' & T & H). cs. cbn [fst] in H.
  destruct H as [(N & ->)|[(N & S & q & kid & i & m & r' & o & -> & _)|[(S & S2 & o & -> & _)|(S & S2 & ->)]]].
  - split; [apply only_prk_refl|]. split; [reflexivity|contradiction].
  - split; [apply set_prk_only|]. split; [rewrite S; discriminate|contradiction].
  - split; [eexists; eexists; reflexivity|]. split; [rewrite S; discriminate|]. intros _. rewrite S. split; [lia|reflexivity].
  - split; [apply only_prk_refl|]. split; [reflexivity|]. intros _. split; [exact S2|]. contradiction.
Qed.

(** ** The exported value *)
Definition secret_of (f : bytes -> bytes -> Z -> bytes) (h : Z) (po : bytes) (label n : Z) : bytes :=
  f (f po (enc_info L_PRK_EXPORTER [] (u32 h)) h) (enc_info label [] (u32 n)) n.
Lemma expand_fn_app : forall f t t', expand_fn f (t ++ t') -> expand_fn f t /\ expand_fn f t'.
Proof. intros f t t' H. split; intros kid i n o prk K; apply (H kid); [now apply with_key_r|now apply with_key_l]. Qed.
Lemma tail_value : forall n, 
  forall c t, sat Any (compute_prk_exporter n) (Wd c t) (fun x w' => fst x = OK ->
    c_prk_state c = PRK_OUT /\ w_ctx w' = c /\ exists t', w_tr w' = t' ++ t /\
    exists kid o, with_key t' (EvExpand kid (enc_info L_PRK_EXPORTER [] (u32 n)) n OK o) kid KT_EXPAND (prk_of c) /\
      zlen o <= n /\ snd x = blit (zeros n) o).
Proof.
  intros n c t. unfold compute_prk_exporter. apply sat_bind, sat_getc. cs. sy. bools. sy. sy. unfold kdf.
  repeat (sy; cs). bools. apply sat_ret. cs. intros _. split; [assumption|]. split; [reflexivity|].
  match goal with F : fits _ _ = Some _ |- _ => apply fits_some in F as [-> _] end.
  eexists. split; [trx|]. eexists _, _. split; [keyed|]. split; [assumption|reflexivity].
Qed.
Lemma export_value : forall nn label n c t,
  sat Any (export_prk_exporter nn label n) (Wd c t) (fun x w' => fst x = OK ->
    c_prk_state (w_ctx w') = PRK_OUT /\ exists t', w_tr w' = t' ++ t /\ 
    (forall f, expand_fn f t' -> snd x = secret_of f (cs_hash (the_suite (w_ctx w'))) (prk_of (w_ctx w')) label n)).
Proof.
  intros nn label n c t. unfold export_prk_exporter. do 7 sy. cs.
  sy. match goal with |- sat Any ?m ?w ?Q => apply sat_conseq with (P := fun r w' => exists t', w_tr w' = t' ++ t /\ the_suite (w_ctx w') = the_suite c) end.
  { destruct (c_prk_state c =? PRK_4E3M).
    - eapply sat_conseq; [apply all_prk_out|]. intros r w (t' & T & HH). exists t'. split; [exact T|].
      destruct HH as [[_ ->]|[(_ & q & ? & ? & ? & ? & ? & -> & _)|(_ & _ & o & -> & _)]]; reflexivity.
    - apply sat_ret. exists []. split; reflexivity. }
  intros r w (t1 & T1 & S1). destruct w as [c1 tt]. cs in T1. cs in S1. subst tt. sy. sy. sy. sy. sy. rewrite <- S1.
  eapply sat_conseq; [apply tail_value|]. intros [r2 pe] w2 H2. cbn [fst snd] in H2. destruct (r2 =? OK) eqn:E2; cbn [negb]; [|deadend].
  apply Z.eqb_eq in E2. specialize (H2 E2). destruct H2 as (P1 & P2 & t2 & T2 & kid & o & W & Lo & ->). destruct w2 as [c2 tt]. cs in P2. cs in T2. subst c2 tt.
  repeat (sy; cs). bools. apply sat_ret. cs. intros _. split; [assumption|].
  match goal with F : fits _ _ = Some _ |- _ => apply fits_some in F as [-> _] end. cbn [fst snd].
  eexists. split; [trx|]. intros f F. unfold secret_of.
  assert (A : o = f (prk_of c1) (enc_info L_PRK_EXPORTER [] (u32 (cs_hash (the_suite c1)))) (cs_hash (the_suite c1)) /\ zlen o = cs_hash (the_suite c1)).
  { apply (F kid). repeat first [ exact W | apply with_key_cons | apply with_key_r | apply with_key_l ]. }
  destruct A as [A1 A2]. rewrite blit_zeros_exact in F by assumption. rewrite <- A1.
  eapply (F kid0); keyed.
Qed.
End Export.
