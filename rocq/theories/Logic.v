(** Program logic: outcomes, frames and resource accounting. *)
From Verif Require Import Monad Spec.
From Verif Require Export Facts.

(** [sat U m w Q]: running [m] from [w] returns a result satisfying [Q], or exhibits an
    undefined behaviour of a kind in [U]. *)
Definition sat (U : ub -> Prop) {A} (m : M A) (w : world) (Q : A -> world -> Prop) : Prop :=
  match m w with Ret a w' => Q a w' | Ub u => U u end.

Section Sat.
Variable U : ub -> Prop.

Lemma sat_ret : forall A (a : A) w (Q : A -> world -> Prop), Q a w -> sat U (ret a) w Q.
Proof. intros. exact H. Qed.
Lemma sat_bind : forall A B (m : M A) (k : A -> M B) w (Q : B -> world -> Prop),
  sat U m w (fun a w' => sat U (k a) w' Q) -> sat U (bind m k) w Q.
Proof. intros A B m k w Q H. unfold sat, bind in *. destruct (m w); exact H. Qed.
Lemma sat_conseq : forall A (m : M A) w (P Q : A -> world -> Prop),
  sat U m w P -> (forall a w', P a w' -> Q a w') -> sat U m w Q.
Proof. intros A m w P Q H HPQ. unfold sat in *. destruct (m w); auto. Qed.
Lemma sat_fault : forall A u w (Q : A -> world -> Prop), U u -> sat U (fault u) w Q.
Proof. intros. exact H. Qed.
Lemma sat_check : forall b u w (Q : unit -> world -> Prop),
  (b = false -> U u) -> (b = true -> Q tt w) -> sat U (check b u) w Q.
Proof. intros b u w Q H1 H2. unfold check, sat, ret, fault. destruct b; auto. Qed.
Lemma sat_need : forall A (o : option A) u w (Q : A -> world -> Prop),
  (o = None -> U u) -> (forall a, o = Some a -> Q a w) -> sat U (need o u) w Q.
Proof. intros A o u w Q H1 H2. unfold need, sat, ret, fault. destruct o; auto. Qed.
Lemma sat_getc : forall w (Q : ctx -> world -> Prop), Q (w_ctx w) w -> sat U getc w Q.
Proof. intros. exact H. Qed.
Lemma sat_trace : forall w (Q : list event -> world -> Prop), Q (w_tr w) w -> sat U trace w Q.
Proof. intros. exact H. Qed.
Lemma sat_modify : forall f w (Q : unit -> world -> Prop),
  Q tt (Wd (f (w_ctx w)) (w_tr w)) -> sat U (modify f) w Q.
Proof. intros. exact H. Qed.
Lemma sat_emit : forall e w (Q : unit -> world -> Prop),
  Q tt (Wd (w_ctx w) (e :: w_tr w)) -> sat U (emit e) w Q.
Proof. intros. exact H. Qed.
End Sat.

Lemma sat_weaken : forall (U V : ub -> Prop) A (m : M A) w Q,
  (forall u, U u -> V u) -> sat U m w Q -> sat V m w Q.
Proof. intros U V A m w Q H. unfold sat. destruct (m w); auto. Qed.
Lemma sat_run : forall U A (m : M A) w Q a w', sat U m w Q -> m w = Ret a w' -> Q a w'.
Proof. intros U A m w Q a w' H E. unfold sat in H. now rewrite E in H. Qed.
Lemma sat_ub : forall U A (m : M A) w Q u, sat U m w Q -> m w = Ub u -> U u.
Proof. intros U A m w Q u H E. unfold sat in H. now rewrite E in H. Qed.

(** Inversion of runs. *)
Lemma bind_inv : forall A B (m : M A) (k : A -> M B) w b w',
  bind m k w = Ret b w' -> exists a w1, m w = Ret a w1 /\ k a w1 = Ret b w'.
Proof. intros A B m k w b w' H. unfold bind in H. destruct (m w); [eauto|discriminate]. Qed.
Lemma check_inv : forall b u w x w', check b u w = Ret x w' -> b = true /\ w' = w.
Proof. intros b u w x w' H. unfold check in H. destruct b; [|discriminate]. now inversion H. Qed.
Lemma need_inv : forall A (o : option A) u w x w',
  need o u w = Ret x w' -> o = Some x /\ w' = w.
Proof. intros A o u w x w' H. unfold need in H. destruct o; [|discriminate]. now inversion H. Qed.

Lemma live_app : forall b t t', live b (t ++ t') = live b t + live b t'.
Proof.
  induction t as [|e t IH]; intros; cbn [app]; [reflexivity|].
  destruct e; cbn [live]; rewrite ?IH; try lia. destruct ok; rewrite ?IH; lia.
Qed.
Lemma handles_app : forall k t t', handles k (t ++ t') = handles k t + handles k t'.
Proof. induction t as [|e t IH]; intros; cbn [app]; [reflexivity|]. destruct e; cbn [handles]; rewrite IH; lia. Qed.

(** Context fields no helper of a message call writes; [enter], the final update and the
    negotiation of message 1 do. *)
Definition kept (c : ctx) :=
  (c_chosen_method c, c_methods c, c_method_len c, c_csuite_idx c, c_csuites c, c_csuite_len c,
   (c_cid c, c_is_init c, c_oscore_ok c, c_status c, c_message c, c_role c),
   (c_ead c, c_keys c, c_crypto c, c_cred c, c_user c, c_error c)).

(** [st ks d w w']: from [w] to [w'] the trace only grew, [kept] is unchanged, the live
    blocks changed by [d] and the open handles by [ks]. *)
Record st (ks : bytes -> Z) (d : buf -> Z) (w w' : world) : Prop := St {
  st_kept : kept (w_ctx w') = kept (w_ctx w);
  st_ext : exists t, w_tr w' = t ++ w_tr w;
  st_live : forall b, live b (w_tr w') = live b (w_tr w) + d b;
  st_hand : forall k, handles k (w_tr w') = handles k (w_tr w) + ks k }.

Definition k0 : bytes -> Z := fun _ => 0.
Definition d0 : buf -> Z := fun _ => 0.
Definition kin (kid : bytes) : bytes -> Z := fun k => if beqb k kid then 1 else 0.
Definition bin (b' : buf) : buf -> Z := fun b => if buf_eqb b b' then 1 else 0.

Lemma st_refl : forall w, st k0 d0 w w.
Proof. intro w. split; try reflexivity; [now exists []| |]; intros; cbv beta delta [k0 d0]; lia. Qed.
Lemma st_trans : forall ks d ks' d' w w1 w2,
  st ks d w w1 -> st ks' d' w1 w2 -> st (fun k => ks k + ks' k) (fun b => d b + d' b) w w2.
Proof.
  intros ks d ks' d' w w1 w2 [A1 [t1 B1] C1 D1] [A2 [t2 B2] C2 D2]. split.
  - congruence.
  - exists (t2 ++ t1). rewrite B2, B1. apply app_assoc.
  - intro b. rewrite C2, C1. lia.
  - intro k. rewrite D2, D1. lia.
Qed.
Lemma st_eq : forall ks d ks' d' w w',
  st ks d w w' -> (forall k, ks k = ks' k) -> (forall b, d b = d' b) -> st ks' d' w w'.
Proof.
  intros ks d ks' d' w w' [A B C D] H1 H2. split; auto.
  - intro b. now rewrite C, H2.
  - intro k. now rewrite D, H1.
Qed.
Lemma st_tr : forall ks d w w' w'', st ks d w w' -> w_tr w'' = w_tr w' ->
  kept (w_ctx w'') = kept (w_ctx w') -> st ks d w w''.
Proof. intros ks d w w' w'' [A B C D] H1 H2. split; rewrite ?H1, ?H2; auto. Qed.

(** The only kind of undefined behaviour excluded while accounting for resources. *)
Definition nofree (u : ub) : Prop := u <> UbFree.
Definition nonneg (w : world) : Prop := forall b, 0 <= live b (w_tr w).

Section Prims.
Context {E : env}.

Lemma alloc_run : forall b n w,
  alloc b n w = match cf_stack with
                | Some lim => if (0 <? n) && (n <=? lim)
                              then Ret true (Wd (w_ctx w) (EvAlloc b n true :: w_tr w))
                              else Ub UbVla
                | None => let ok := o_alloc (w_tr w) b n in
                          Ret ok (Wd (w_ctx w) (EvAlloc b n ok :: w_tr w))
                end.
Proof.
  intros. unfold alloc. destruct cf_stack; [|reflexivity].
  unfold bind, check. destruct ((0 <? n) && (n <=? z)); reflexivity.
Qed.
Lemma alloc_inv : forall b n w ok w', alloc b n w = Ret ok w' ->
  w' = Wd (w_ctx w) (EvAlloc b n ok :: w_tr w).
Proof.
  intros b n w ok w' H. rewrite alloc_run in H. destruct cf_stack as [lim|].
  - destruct ((0 <? n) && (n <=? lim)); inversion H; subst; reflexivity.
  - inversion H; subst; reflexivity.
Qed.
Lemma free_inv : forall b w x w', free b w = Ret x w' ->
  w' = Wd (w_ctx w) (EvFree b :: w_tr w).
Proof.
  intros b w x w' H. unfold free, trace, bind, check, emit in H.
  destruct (0 <? live b (w_tr w)); inversion H; reflexivity.
Qed.

Lemma st_emit : forall e w (ks : bytes -> Z) d,
  (forall b, live b [e] = d b) -> (forall k, handles k [e] = ks k) ->
  st ks d w (Wd (w_ctx w) (e :: w_tr w)).
Proof.
  intros e w ks d H1 H2. split; cbn [w_ctx w_tr].
  - reflexivity.
  - now exists [e].
  - intro b. change (e :: w_tr w) with ([e] ++ w_tr w). rewrite live_app, H1. lia.
  - intro k. change (e :: w_tr w) with ([e] ++ w_tr w). rewrite handles_app, H2. lia.
Qed.
Lemma st_emit0 : forall e w,
  (forall b, live b [e] = 0) -> (forall k, handles k [e] = 0) ->
  st k0 d0 w (Wd (w_ctx w) (e :: w_tr w)).
Proof. intros. now apply st_emit. Qed.

Lemma alloc_st : forall b n w,
  sat nofree (alloc b n) w (fun ok w' => st k0 (if ok then bin b else d0) w w').
Proof.
  intros b n w. unfold sat. rewrite alloc_run. destruct cf_stack as [lim|].
  - destruct ((0 <? n) && (n <=? lim)); [|intro; discriminate].
    apply st_emit; intros; cbn [live handles]; unfold bin, k0; reflexivity.
  - cbv zeta. destruct (o_alloc (w_tr w) b n); apply st_emit; intros; reflexivity.
Qed.
Lemma free_st : forall b w, 0 < live b (w_tr w) ->
  sat nofree (free b) w (fun _ w' => st k0 (fun b' => - bin b b') w w').
Proof.
  intros b w H. unfold sat, free, trace, bind, check, emit, ret.
  destruct (0 <? live b (w_tr w)) eqn:X; [|lia].
  apply st_emit; intros; cbn [live handles]; unfold bin, k0; lia.
Qed.

Lemma import_st : forall kt key w,
  sat nofree (call_import kt key) w
    (fun x w' => st (if fst x =? OK then kin (snd x) else k0) d0 w w').
Proof.
  intros. unfold call_import. apply sat_bind, sat_getc, sat_bind, sat_need; [intros _ Hd; discriminate|].
  intros f Hf. apply sat_bind, sat_trace. destruct (o_import f (w_tr w) kt key) as [r kid].
  apply sat_bind, sat_emit, sat_ret. cbn [fst snd].
  apply st_emit; intros; cbn [live handles]; unfold d0, k0, kin; [reflexivity|].
  destruct (r =? OK); cbn [andb]; [|reflexivity]. lia.
Qed.
Lemma destroy_st : forall kid w,
  sat nofree (call_destroy kid) w (fun _ w' => st (fun k => - kin kid k) d0 w w').
Proof.
  intros. unfold call_destroy. apply sat_bind, sat_getc, sat_bind, sat_need; [intros _ Hd; discriminate|].
  intros f Hf. apply sat_bind, sat_trace, sat_bind, sat_emit, sat_ret.
  apply st_emit; intros; cbn [live handles]; unfold d0, k0, kin; lia.
Qed.

(** Everything else that only reads, emits one neutral event, or writes a free field. *)
Definition fr {A} (m : M A) : Prop :=
  forall w, nonneg w -> sat nofree m w (fun _ w' => st k0 d0 w w').

Ltac prim_step :=
  lazymatch goal with
  | |- sat _ (bind _ _) _ _ => apply sat_bind
  | |- sat _ (ret _) _ _ => apply sat_ret
  | |- sat _ getc _ _ => apply sat_getc
  | |- sat _ trace _ _ => apply sat_trace
  | |- sat _ (need _ _) _ _ => apply sat_need; [intros _ HX; discriminate|intros ? ?]
  | |- sat _ (check _ _) _ _ => apply sat_check; [intros _ HX; discriminate|intros ?]
  | |- sat _ (modify _) _ _ => apply sat_modify
  | |- sat _ (emit _) _ _ => apply sat_emit
  | |- sat _ (match ?x with _ => _ end) _ _ => destruct x as [? ?]
  end.
Ltac prim := intros; red; intros; repeat prim_step.
Ltac primE := prim; (apply st_emit0; intros; reflexivity).

Lemma mkpair_fr : forall k a b, fr (call_mkpair k a b). Proof. unfold call_mkpair, out_ok. primE. Qed.
Lemma agree_fr : forall k p n, fr (call_agree k p n). Proof. unfold call_agree, out_ok. primE. Qed.
Lemma sign_fr : forall k p n, fr (call_sign k p n). Proof. unfold call_sign, out_ok. primE. Qed.
Lemma verify_fr : forall k p n, fr (call_verify k p n). Proof. unfold call_verify, out_ok. primE. Qed.
Lemma extract_fr : forall k p n, fr (call_extract k p n). Proof. unfold call_extract, out_ok. primE. Qed.
Lemma expand_fr : forall k p n, fr (call_expand k p n). Proof. unfold call_expand, out_ok. primE. Qed.
Lemma encrypt_fr : forall k a b c n, fr (call_encrypt k a b c n). Proof. unfold call_encrypt, out_ok. primE. Qed.
Lemma decrypt_fr : forall k a b c n, fr (call_decrypt k a b c n). Proof. unfold call_decrypt, out_ok. primE. Qed.
Lemma hash_fr : forall i n, fr (call_hash i n). Proof. unfold call_hash, out_ok. primE. Qed.
Lemma fetch_fr : fr call_fetch. Proof. unfold call_fetch. primE. Qed.
Lemma cverify_fr : forall cr, fr (call_cverify cr). Proof. unfold call_cverify. primE. Qed.
Lemma compose_fr : forall f m n, fr (call_compose f m n). Proof. unfold call_compose. primE. Qed.
Lemma process_fr : forall f m l, fr (call_process f m l). Proof. unfold call_process. primE. Qed.

Lemma ret_fr : forall A (a : A), fr (ret a).
Proof. intros A a w _. apply sat_ret, st_refl. Qed.
Lemma getc_fr : fr getc. Proof. intros w _. apply sat_getc, st_refl. Qed.
Lemma check_fr : forall b u, u <> UbFree -> fr (check b u).
Proof. intros b u H w _. apply sat_check; intro; [exact H|apply st_refl]. Qed.
Lemma need_fr : forall A (o : option A) u, u <> UbFree -> fr (need o u).
Proof. intros A o u H w _. apply sat_need; intros; [exact H|apply st_refl]. Qed.
Lemma fault_fr : forall A u, u <> UbFree -> fr (@fault A u).
Proof. intros A u H w _. apply sat_fault. exact H. Qed.
Lemma modify_fr : forall f, (forall c, kept (f c) = kept c) -> fr (modify f).
Proof.
  intros f H w _. apply sat_modify. eapply st_tr; [apply st_refl| |]; cbn [w_tr w_ctx]; auto.
Qed.
Lemma nonneg_st : forall ks d w w', nonneg w -> st ks d w w' -> (forall b, 0 <= d b) -> nonneg w'.
Proof.
  intros ks d w w' Hn H Hd b. rewrite (st_live _ _ _ _ H). specialize (Hn b). specialize (Hd b). lia.
Qed.
Lemma bind_fr : forall A B (m : M A) (k : A -> M B), fr m -> (forall a, fr (k a)) -> fr (bind m k).
Proof.
  intros A B m k Hm Hk w Hn. apply sat_bind. eapply sat_conseq; [apply Hm, Hn|].
  intros a w1 H1. cbn beta in H1. eapply sat_conseq; [apply Hk|].
  - eapply nonneg_st; eauto. intros; cbv beta delta [d0]; lia.
  - intros b w2 H2. cbn beta in H2. eapply st_eq; [eapply st_trans; eassumption| |]; intros; cbv beta delta [k0 d0]; lia.
Qed.

(** Using a framed computation inside a longer accounting. *)
Lemma sat_fr : forall A (m : M A) ks d w0 w (Q : A -> world -> Prop),
  nonneg w0 -> st ks d w0 w -> (forall b, 0 <= d b) -> fr m ->
  (forall a w', st ks d w0 w' -> Q a w') -> sat nofree m w Q.
Proof.
  intros A m ks d w0 w Q Hn H Hd Hm HQ. eapply sat_conseq; [apply Hm; eapply nonneg_st; eauto|].
  intros a w' H'. apply HQ. cbn beta in H'.
  eapply st_eq; [eapply st_trans; eassumption| |]; intros; cbv beta delta [k0 d0]; lia.
Qed.
Lemma sat_alloc : forall b n ks d w0 w (Q : bool -> world -> Prop),
  st ks d w0 w ->
  (forall w', st ks (fun x => d x + bin b x) w0 w' -> Q true w') ->
  (forall w', st ks d w0 w' -> Q false w') -> sat nofree (alloc b n) w Q.
Proof.
  intros b n ks d w0 w Q H H1 H2. eapply sat_conseq; [apply alloc_st|].
  intros ok w' H'. cbn beta in H'. destruct ok; [apply H1|apply H2];
    (eapply st_eq; [eapply st_trans; eassumption| |]; intros; cbv beta delta [k0 d0]; lia).
Qed.
Lemma sat_free : forall b ks d w0 w (Q : unit -> world -> Prop),
  nonneg w0 -> st ks d w0 w -> 0 < d b ->
  (forall w', st ks (fun x => d x - bin b x) w0 w' -> Q tt w') -> sat nofree (free b) w Q.
Proof.
  intros b ks d w0 w Q Hn H Hd H1. eapply sat_conseq; [apply free_st|].
  - rewrite (st_live _ _ _ _ H). specialize (Hn b). lia.
  - intros [] w' H'. apply H1. eapply st_eq; [eapply st_trans; eassumption| |]; intros; cbv beta delta [k0]; lia.
Qed.
Lemma sat_import : forall kt key ks d w0 w (Q : Z * bytes -> world -> Prop),
  st ks d w0 w ->
  (forall r kid w', st (fun k => ks k + (if r =? OK then kin kid k else 0)) d w0 w' ->
     Q (r, kid) w') -> sat nofree (call_import kt key) w Q.
Proof.
  intros kt key ks d w0 w Q H H1. eapply sat_conseq; [apply import_st|].
  intros [r kid] w' H'. cbn [fst snd] in H'. apply H1.
  eapply st_eq; [eapply st_trans; eassumption| |]; intros; unfold d0; [|lia].
  destruct (r =? OK); reflexivity.
Qed.
Lemma sat_destroy : forall kid ks d w0 w (Q : Z -> world -> Prop),
  st ks d w0 w ->
  (forall r w', st (fun k => ks k - kin kid k) d w0 w' -> Q r w') ->
  sat nofree (call_destroy kid) w Q.
Proof.
  intros kid ks d w0 w Q H H1. eapply sat_conseq; [apply destroy_st|].
  intros r w' H'. cbn beta in H'. apply H1. eapply st_eq; [eapply st_trans; eassumption| |]; intros; cbv beta delta [d0]; lia.
Qed.
End Prims.
