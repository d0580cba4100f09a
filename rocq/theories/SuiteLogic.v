(** Proof tools for the helper monad: weakest preconditions. *)
From Verif Require Import Bytes Facts Values Monad Psa SuiteX SuiteW.

(** [F] says which faults are accepted. *)
Definition wp {A} (F : ub -> Prop) (m : X A) (s : xst) (Q : A -> xst -> Prop) : Prop :=
  match m s with XRet a s' => Q a s' | XUb u => F u end.

Section Wp.
Context {L : libs}.
Lemma wp_ret {A} (F : ub -> Prop) (a : A) s (Q : A -> xst -> Prop) : Q a s -> wp F (xret a) s Q.
Proof. exact (fun H => H). Qed.
Lemma wp_bind {A B} (F : ub -> Prop) (m : X A) (k : A -> X B) s (Q : B -> xst -> Prop) :
  wp F m s (fun a s' => wp F (k a) s' Q) -> wp F (xbind m k) s Q.
Proof. unfold wp, xbind. destruct (m s); auto. Qed.
Lemma wp_mono {A} (F : ub -> Prop) (m : X A) s (Q R : A -> xst -> Prop) :
  wp F m s Q -> (forall a s', Q a s' -> R a s') -> wp F m s R.
Proof. unfold wp. destruct (m s); auto. Qed.
Lemma wp_check (F : ub -> Prop) b u s (Q : unit -> xst -> Prop) : (b = false -> F u) -> (b = true -> Q tt s) -> wp F (xcheck b u) s Q.
Proof. unfold wp, xcheck. destruct b; cbn; auto. Qed.
Lemma wp_need {A} (F : ub -> Prop) (o : option A) s (Q : A -> xst -> Prop) :
  (o = None -> F UbNull) -> (forall a, o = Some a -> Q a s) -> wp F (xneed o) s Q.
Proof. unfold wp, xneed. destruct o; cbn; auto. Qed.
Lemma wp_do {A} (F : ub -> Prop) c (bad : A) f s (Q : Z * A -> xst -> Prop) :
  (forall e, e = x_status (x_log s) c -> e <> 0 -> Q (e, bad) (log c e s)) ->
  (x_status (x_log s) c = 0 -> let '(r, a, s') := f s in Q (r, a) (log c r s')) ->
  wp F (xdo c bad f) s Q.
Proof.
  unfold wp, xdo. intros H1 H2. destruct (x_status (x_log s) c =? 0) eqn:E.
  - apply Z.eqb_eq in E. specialize (H2 E). destruct (f s) as [[r a] s']. exact H2.
  - apply Z.eqb_neq in E. now apply H1.
Qed.
Lemma wp_get {A} (F : ub -> Prop) c (bad : A) f s (Q : Z * A -> xst -> Prop) :
  (forall e, e = x_status (x_log s) c -> e <> 0 -> Q (e, bad) (log c e s)) ->
  (x_status (x_log s) c = 0 -> let '(r, a) := f s in Q (r, a) (log c r s)) ->
  wp F (xget c bad f) s Q.
Proof.
  unfold xget. intros H1 H2. apply wp_do; [exact H1|]. intros E. specialize (H2 E). now destruct (f s).
Qed.
Lemma wp_abort (F : ub -> Prop) s (Q : unit -> xst -> Prop) : Q tt (log XAbort 0 (set_op None s)) -> wp F psa_key_derivation_abort s Q.
Proof. exact (fun H => H). Qed.
Lemma wp_free (F : ub -> Prop) s (Q : unit -> xst -> Prop) : Q tt (log XPkFree 0 (set_pk false s)) -> wp F mbedtls_pk_free s Q.
Proof. exact (fun H => H). Qed.
Lemma wp_intro {A} (m : X A) s (Q : A -> xst -> Prop) a s' : wp (fun _ => True) m s Q -> m s = XRet a s' -> Q a s'.
Proof. unfold wp. intros H E. now rewrite E in H. Qed.
Lemma wp_of {A} (m : X A) s (Q : A -> xst -> Prop) :
  (forall a s', m s = XRet a s' -> Q a s') -> wp (fun _ => True) m s Q.
Proof. unfold wp. destruct (m s); auto. Qed.
End Wp.

(** One step of symbolic execution. *)
Ltac wp_case :=
  match goal with
  | |- wp _ (match ?x with _ => _ end) _ _ => destruct x eqn:?
  | |- let '(_, _) := ?x in _ => destruct x eqn:?
  | |- (match ?x with _ => _ end) => destruct x eqn:?
  end.
Ltac wp_ok :=
  repeat match goal with
         | H : ?e <> 0 |- context [negb (?e =? 0)] =>
           replace (negb (e =? 0)) with true by (symmetry; apply negb_true_iff, Z.eqb_neq, H)
         | |- context [true || ?b] => change (true || b) with true
         | |- context [false || ?b] => change (false || b) with b
         | |- context [negb (0 =? 0)] => change (negb (0 =? 0)) with false
         | |- context [negb (PSA_NOT_PERMITTED =? 0)] => change (negb (PSA_NOT_PERMITTED =? 0)) with true
         | |- context [negb (PSA_INVALID_ARGUMENT =? 0)] => change (negb (PSA_INVALID_ARGUMENT =? 0)) with true
         | |- context [negb (PSA_INVALID_HANDLE =? 0)] => change (negb (PSA_INVALID_HANDLE =? 0)) with true
         | |- context [negb (PSA_INSUFFICIENT_MEMORY =? 0)] => change (negb (PSA_INSUFFICIENT_MEMORY =? 0)) with true
         | |- context [negb (PSA_BAD_STATE =? 0)] => change (negb (PSA_BAD_STATE =? 0)) with true
         | |- context [negb (PSA_BUFFER_TOO_SMALL =? 0)] => change (negb (PSA_BUFFER_TOO_SMALL =? 0)) with true
         | |- context [negb (PSA_INVALID_SIGNATURE =? 0)] => change (negb (PSA_INVALID_SIGNATURE =? 0)) with true
         | |- context [negb (OK =? OK)] => change (negb (OK =? OK)) with false
         | |- context [negb (E_INVALID_ARG =? OK)] => change (negb (E_INVALID_ARG =? OK)) with true
         | |- context [negb (E_CRYPTO =? OK)] => change (negb (E_CRYPTO =? OK)) with true
         | |- context [negb (E_TOO_SMALL =? OK)] => change (negb (E_TOO_SMALL =? OK)) with true
         | |- context [negb (ECP_BUFFER_TOO_SMALL =? 0)] => change (negb (ECP_BUFFER_TOO_SMALL =? 0)) with true
         end.

Ltac wp_inner t :=
  lazymatch t with
  | match ?x with _ => _ end => wp_inner x
  | _ => destruct t eqn:?
  end.
Ltac wp_head m := lazymatch m with ?f _ => wp_head f | ?f => f end.
Ltac wp_step :=
  lazymatch goal with
  | |- wp _ (xbind _ _) _ _ => apply wp_bind
  | |- wp _ (xret _) _ _ => apply wp_ret
  | |- wp _ (xcheck _ _) _ _ => apply wp_check; intros ?
  | |- wp _ (xneed _) _ _ => apply wp_need; [intros ?|intros ? ?]
  | |- wp _ (xdo _ _ _) _ _ => apply wp_do; [intros ? ? ?|intros ?]
  | |- wp _ (xget _ _ _) _ _ => apply wp_get; [intros ? ? ?|intros ?]
  | |- wp _ psa_key_derivation_abort _ _ => apply wp_abort
  | |- wp _ mbedtls_pk_free _ _ => apply wp_free
  | |- wp _ (match ?x with _ => _ end) _ _ => wp_inner x
  | |- match ?x with _ => _ end => wp_inner x
  | |- wp _ ?m _ _ => let h := wp_head m in unfold h
  end; cbv beta iota; wp_ok; cbv beta iota.
Ltac wp_go := repeat wp_step.
Ltac wp_start :=
  match goal with
  | |- ?m ?s = XRet ?o ?s' -> ?G =>
    let g := eval pattern o, s' in G in
    match g with ?f _ _ => refine (wp_intro m s f o s' _) end
  end.
