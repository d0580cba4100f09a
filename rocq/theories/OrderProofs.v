(** Configuration calls about different settings commute.  No code of /repo is modelled here. *)
From Coq Require Import Permutation.
From Verif Require Import Monad Api Common Exporter History Spec HistoryProofs IsoProofs Order.

Section Order.
Context {E : env}.
Definition upd (a : api) (c : ctx) : ctx :=
  match a with
  | AMethods (Some l) => set_methods (blit (c_methods c) l) (set_method_len (zlen l) c)
  | ASuites (Some l) => set_csuites (blit (c_csuites c) l) (set_csuite_len (zlen l) c)
  | ACid (Some i) => set_cid i c | AUser (Some u) => set_user (Some u) c
  | ABindEad (Some e) => set_ead e c | ABindKeys (Some k) => set_keys k c
  | ABindCrypto (Some k) => set_crypto k c | ABindCred (Some k) => set_cred k c
  | _ => c
  end.
(** A configuration call is a verdict that depends on the initialisation, and an update. *)
Definition verdict (f : ctx -> Z * ctx) (u : ctx -> ctx) : Prop := exists v : bool -> Z, forall c,
  f c = (v (c_is_init c), if v (c_is_init c) =? OK then u c else c).
Ltac ver := match goal with |- verdict ?f _ => exists (fun i => fst (f (set_is_init i ctx0))) end;
  let d := fresh in intro d; cbv beta; change (c_is_init (set_is_init (c_is_init d) ctx0)) with (c_is_init d); destruct (c_is_init d); cbn [negb];
  repeat match goal with |- context [if ?b then _ else _] => lazymatch b with (fst _ =? OK) => fail | _ => destruct b end end; reflexivity.
Lemma methods_v : forall x, verdict (set_methods_call x) (upd (AMethods x)). Proof. intros [l|]; unfold set_methods_call; ver. Qed.
Lemma suites_v : forall x, verdict (set_cipher_suites_call x) (upd (ASuites x)). Proof. intros [l|]; unfold set_cipher_suites_call; ver. Qed.
Lemma cid_v : forall x, verdict (set_connection_id_call x) (upd (ACid x)). Proof. intros [l|]; unfold set_connection_id_call; ver. Qed.
Lemma user_v : forall x, verdict (set_user_context_call x) (upd (AUser x)). Proof. intros [l|]; unfold set_user_context_call; ver. Qed.
Lemma ead_v : forall x, verdict (bind_ead_call x) (upd (ABindEad x)). Proof. intros [l|]; unfold bind_ead_call; ver. Qed.
Lemma keys_v : forall x, verdict (bind_keys_call x) (upd (ABindKeys x)). Proof. intros [l|]; unfold bind_keys_call; ver. Qed.
Lemma crypto_v : forall x, verdict (bind_crypto_call x) (upd (ABindCrypto x)).
Proof. intros [l|]; unfold bind_crypto_call; [|ver]. generalize (is_none (f_mkpair l) || is_none (f_agree l) || is_none (f_sign l) || is_none (f_verify l) || is_none (f_extract l) || is_none (f_expand l) || is_none (f_encrypt l) || is_none (f_decrypt l) || is_none (f_hash l)); intro b. ver. Qed.
Lemma cred_v : forall x, verdict (bind_credentials_call x) (upd (ABindCred x)). Proof. intros [l|]; unfold bind_credentials_call; ver. Qed.
Definition shaped (a : api) : Prop := exists v : bool -> Z, forall w,
  do_api a w = Ret (v (c_is_init (w_ctx w)), ONone) (Wd (if v (c_is_init (w_ctx w)) =? OK then upd a (w_ctx w) else w_ctx w) (w_tr w)).
Lemma shape : forall a, is_config a = true -> shaped a.
Proof.
  assert (G : forall a f, verdict f (upd a) -> (forall w, do_api a w = cfg f w) -> shaped a).
  { intros a f [v V] D. exists v. intro w. rewrite D. unfold cfg, bind, getc, modify, ret. now rewrite V. }
  intros a A. destruct a; try discriminate A; (eapply G; [|intro; reflexivity]);
    first [apply methods_v|apply suites_v|apply cid_v|apply user_v|apply ead_v|apply keys_v|apply crypto_v|apply cred_v].
Qed.
Lemma upd_init : forall a c, c_is_init (upd a c) = c_is_init c.
Proof. intros a c. destruct a; try reflexivity; match goal with x : option _ |- _ => destruct x end; reflexivity. Qed.
Lemma about_ex : forall a, is_config a = true -> exists s, about s a = true.
Proof. intros a A. destruct a; try discriminate A; [exists SMethods|exists SSuites|exists SCid|exists SUser|exists SEad|exists SKeys|exists SCrypto|exists SCred]; reflexivity. Qed.
Lemma about_one : forall s t a, about s a = true -> about t a = true -> s = t.
Proof. intros s t a. destruct s, a; try discriminate; destruct t; try discriminate; reflexivity. Qed.
Lemma upd_swap : forall a b s, about s a = true -> about s b = false -> forall c, upd a (upd b c) = upd b (upd a c).
Proof.
  intros a b s A B c. destruct s, a; try discriminate A; destruct b; try discriminate B; try reflexivity;
    repeat match goal with x : option _ |- _ => destruct x end; destruct c; reflexivity.
Qed.
Lemma swap : forall a b s w, is_config a = true -> is_config b = true -> about s a = true -> about s b = false ->
  exists ra rb w1 w2 w', do_api a w = Ret ra w1 /\ do_api b w1 = Ret rb w' /\ do_api b w = Ret rb w2 /\ do_api a w2 = Ret ra w'.
Proof.
  intros a b s w A B SA SB. destruct (shape _ A) as [va HA], (shape _ B) as [vb HB]. set (i := c_is_init (w_ctx w)).
  eexists _, _, _, _, _. split; [apply HA|]. split; [apply HB|]. cbn [w_ctx w_tr].
  assert (I : forall x (v : bool), c_is_init (if v then upd x (w_ctx w) else w_ctx w) = i) by (intros x [|]; [apply upd_init|reflexivity]).
  rewrite !I. split; [apply HB|]. rewrite HA. cbn [w_ctx w_tr]. rewrite !I. fold i. f_equal. f_equal.
  destruct (va i =? OK), (vb i =? OK); try reflexivity. apply (upd_swap a b s SA SB).
Qed.
Definition by_s (s : setting) (rs : list (api * (Z * out))) := filter (fun x => about s (fst x)) rs.
(** A call moves to the front of calls about other settings. *)
Lemma to_front : forall a s p w rs w', is_config a = true -> about s a = true -> forallb is_config p = true -> forallb (fun b => negb (about s b)) p = true ->
  runs (a :: p) w = Ret rs w' -> exists rs', runs (p ++ [a]) w = Ret rs' w' /\ forall t, by_s t rs = by_s t rs'.
Proof.
  intros a s p. induction p as [|b p IH]; intros w rs w' A SA P N H; [exists rs; split; [exact H|reflexivity]|].
  cbn [forallb] in P, N. apply andb_true_iff in P as [PB P], N as [NB N]. apply negb_true_iff in NB.
  apply runs_cons in H as (r1 & w1 & rs1 & X1 & H & ->). apply runs_cons in H as (r2 & w2 & rs2 & X2 & H & ->).
  destruct (swap a b s w A PB SA NB) as (ra & rb & v1 & v2 & v & S1 & S2 & S3 & S4). rewrite X1 in S1. injection S1 as <- <-. rewrite X2 in S2. injection S2 as <- <-.
  assert (R : runs (a :: p) v2 = Ret ((a, r1) :: rs2) w') by (cbn [runs]; unfold bind; rewrite S4, H; reflexivity).
  destruct (IH _ _ _ A SA P N R) as (rs' & R' & Q). exists ((b, r2) :: rs'). split.
  - cbn [app runs]. unfold bind. rewrite S3, R'. reflexivity.
  - intro t. specialize (Q t). unfold by_s in *. cbn [filter fst] in *. rewrite <- Q. destruct (about t a) eqn:TA, (about t b) eqn:TB; try reflexivity.
    exfalso. pose proof (about_one _ _ _ SA TA) as <-. rewrite NB in TB. discriminate TB.
Qed.
Lemma config_total : forall l w, forallb is_config l = true -> exists rs w', runs l w = Ret rs w' /\ w_tr w' = w_tr w.
Proof.
  induction l as [|a l IH]; intros w L; [exists [], w; split; reflexivity|]. cbn [forallb] in L. apply andb_true_iff in L as [A L].
  destruct (shape _ A) as [v V]. destruct (IH (Wd (if v (c_is_init (w_ctx w)) =? OK then upd a (w_ctx w) else w_ctx w) (w_tr w)) L) as (rs & w' & R & T).
  eexists _, w'. split; [cbn [runs]; unfold bind; rewrite V, R; reflexivity|exact T].
Qed.
Lemma first_of : forall s (l : list api) a t, filter (about s) l = a :: t -> exists p q, l = p ++ a :: q /\ forallb (fun b => negb (about s b)) p = true /\ filter (about s) q = t.
Proof.
  intros s l. induction l as [|b l IH]; intros a t H; [discriminate H|]. cbn [filter] in H. destruct (about s b) eqn:B.
  - injection H as <- <-. now exists [], l.
  - destruct (IH _ _ H) as (p & q & -> & P & Q). exists (b :: p), q. cbn [app forallb]. now rewrite B.
Qed.
Lemma none_of : forall s p, forallb (fun b => negb (about s b)) p = true -> filter (about s) p = [].
Proof. intros s p. induction p as [|b p IH]; [reflexivity|]. cbn [forallb filter]. destruct (about s b); [discriminate|]. apply IH. Qed.
Lemma order : forall l l' w, reordered l l' -> exists rs rs' w', runs l w = Ret rs w' /\ runs l' w = Ret rs' w' /\ w_tr w' = w_tr w /\
  forall s, by_s s rs = by_s s rs'.
Proof.
  induction l as [|a l IH]; intros l' w (L & L' & F).
  - destruct l' as [|b l']; [exists [], [], w; now repeat split|]. cbn [forallb] in L'. apply andb_true_iff in L' as [B _]. destruct (about_ex _ B) as [s S].
    specialize (F s). cbn [filter] in F. rewrite S in F. discriminate F.
  - cbn [forallb] in L. apply andb_true_iff in L as [A L]. destruct (about_ex _ A) as [s S]. pose proof (F s) as Fs. cbn [filter] in Fs. rewrite S in Fs. symmetry in Fs.
    destruct (first_of _ _ _ _ Fs) as (p & q & -> & P & Q). rewrite forallb_app in L'. cbn [forallb] in L'. apply andb_true_iff in L' as [LP L'], L' as [_ LQ].
    destruct (config_total [a] w) as (ra & w1 & R1 & T1); [cbn [forallb]; now rewrite A|].
    assert (RO : reordered l (p ++ q)).
    { split; [exact L|]. split; [rewrite forallb_app, LP, LQ; reflexivity|]. intro t. rewrite filter_app. specialize (F t). rewrite filter_app in F. cbn [filter] in F.
      destruct (about t a) eqn:TA; [|exact F]. pose proof (about_one _ _ _ S TA) as <-. rewrite (none_of _ _ P) in *. injection F as F. exact F. }
    destruct (IH (p ++ q) w1 RO) as (rs & rs' & w' & H1 & H2 & T & Y).
    apply runs_cons in R1 as (r & w1' & rs0 & X & X0 & ->). apply runs_nil in X0 as [-> ->].
    apply runs_app in H2 as (rp & wp & rq & Hp & Hq & ->).
    assert (R : runs (a :: p) w = Ret ((a, r) :: rp) wp) by (cbn [runs]; unfold bind; rewrite X, Hp; reflexivity).
    destruct (to_front a s p w _ _ A S LP P R) as (rf & HF & YF).
    exists ((a, r) :: rs), (rf ++ rq), w'. split; [cbn [runs]; unfold bind; rewrite X, H1; reflexivity|]. split.
    + change (a :: q) with ([a] ++ q). rewrite app_assoc. rewrite (runs_then _ _ _ _ _ _ HF), Hq. reflexivity.
    + split; [now rewrite T|]. intro t. specialize (Y t). specialize (YF t). unfold by_s in *. rewrite filter_app in *. cbn [filter fst] in *. rewrite Y, <- YF. now destruct (about t a).
Qed.
Lemma runs_length : forall l w rs w', runs l w = Ret rs w' -> length rs = length l.
Proof. induction l as [|a l IH]; intros w rs w' H; [apply runs_nil in H as [-> _]; reflexivity|]. apply runs_cons in H as (r & w1 & rs' & _ & H & ->). cbn. f_equal. eapply IH, H. Qed.
Lemma session : forall l l' m w, reordered l l' ->
  match runs (l ++ m) w, runs (l' ++ m) w with
  | Ret rs v, Ret rs' v' => v = v' /\ skipn (length l) rs = skipn (length l') rs'
  | Ub u, Ub u' => u = u'
  | _, _ => False
  end.
Proof.
  intros l l' m w H. destruct (order l l' w H) as (rs & rs' & w' & R & R' & _). rewrite (runs_then _ _ _ _ _ _ R), (runs_then _ _ _ _ _ _ R').
  destruct (runs m w'); [|reflexivity]. split; [reflexivity|]. rewrite <- (runs_length _ _ _ _ R), <- (runs_length _ _ _ _ R'), !skipn_app, !skipn_all, !Nat.sub_diag. reflexivity.
Qed.
Lemma perm_filter : forall (f : api -> bool) l l', Permutation l l' -> Permutation (filter f l) (filter f l').
Proof.
  intros f l l' H. induction H; cbn [filter]; [constructor| | |].
  - destruct (f x); [now constructor|assumption].
  - destruct (f x), (f y); try apply perm_swap; apply Permutation_refl.
  - eapply Permutation_trans; eassumption.
Qed.
Lemma perm_reordered : forall l l', forallb is_config l = true -> (forall s, (length (filter (about s) l) <= 1)%nat) -> Permutation l l' -> reordered l l'.
Proof.
  intros l l' C L P. split; [exact C|]. split.
  - rewrite forallb_forall in *. intros a I. apply C. eapply Permutation_in; [apply Permutation_sym; exact P|exact I].
  - intro s. specialize (L s). pose proof (perm_filter (about s) _ _ P) as Q. destruct (filter (about s) l) as [|a [|b t]].
    + symmetry. now apply Permutation_nil.
    + symmetry. now apply Permutation_length_1_inv.
    + cbn in L. lia.
Qed.
End Order.
