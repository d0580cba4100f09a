(** Outputs of the suites fit the buffers. *)
From Verif Require Import Bytes Facts Values Monad Psa SuiteX SuiteW SuiteCalls SuiteSpec SuiteLogic SuiteProofs SuiteStore
  SuiteOps SuitePoint SuiteAccept SuiteClaims.

Section Fit.
Context {L : libs} (SZ : sized L).
Definition fitting (a : hcall) (o : hout) : Prop :=
  (forall n, room_1 a = Some n -> 0 <= n -> zlen (ho_1 o) <= n) /\ (forall n, room_2 a = Some n -> 0 <= n -> zlen (ho_2 o) <= n).
Lemma fit_nil a r k : fitting a (HO r k [] []).
Proof. split; intros n _ H; exact H. Qed.
Ltac ft := wp_go; try exact I; try apply fit_nil; unfold fitting; cbn [room_1 room_2 ho_1 ho_2];
  (split; intros ? [= <-] ?); try (change (zlen (@nil Z)) with 0; lia);
  repeat match goal with H : (_ <=? _) = true |- _ => apply Z.leb_le in H end; try assumption;
  try (apply zlen_take_le; assumption).
Lemma output_fits S a s o s' : shipped S -> hrun S a s = XRet o s' -> fitting a o.
Proof.
  intros SH. wp_start. destruct a; unfold hrun, out1, outk.
  - destruct S; wp_go; try exact I; apply fit_nil.
  - destruct S; wp_go; try exact I; apply fit_nil.
  - destruct S as [x|w]; ft.
    all: match goal with E : x_keygen ?r = _ |- _ => pose proof (sz_keygen _ SZ r) as K; rewrite E in K; cbn in K end;
      unfold X25519_KEY in *; lia.
  - destruct S as [x|w]; ft. rewrite (sz_smult _ SZ). unfold X25519_KEY, X25519_SHARED in *. lia.
  - destruct S as [x|w]; ft. rewrite (sz_ed _ SZ). unfold ED25519_SIGN in *. lia.
  - destruct S; wp_go; try exact I; apply fit_nil.
  - ft. all: rewrite (sz_expand _ SZ) by assumption; lia.
  - ft. all: rewrite (sz_expand _ SZ) by assumption; lia.
  - ft.
  - ft.
  - ft.
Qed.
End Fit.
