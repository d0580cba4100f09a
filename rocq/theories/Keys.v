(** Keys of sessions under attack: what the two ends of an authenticated session hold.

    Specification only: no code of /repo is modelled here. *)
From Verif Require Import Monad Api Rfc Uses Conform Sessions Active.

(** Equal keys derived for the same purpose (label, transcript, length) come from the same PRK. *)
Definition no_key_collision (t t' : list event) : Prop :=
  forall prk prk' i n o, expanded t prk i n o -> expanded t' prk' i n o -> prk = prk'.
(** Equal suite values mean equal suites. *)
Definition same_table (a b : trip) : Prop :=
  cs_value (my_suite (s0 a)) = cs_value (my_suite (s0 b)) -> my_suite (s0 a) = my_suite (s0 b).
(** Both ends finished with the same TH_4 and PRK_4e3m. *)
Definition same_secret (a b : trip) : Prop :=
  c_th_state (s3 a) = TH_4 /\ c_th_state (s3 b) = TH_4 /\ th_of (s3 a) = th_of (s3 b) /\
  c_prk_state (s3 a) = PRK_4E3M /\ c_prk_state (s3 b) = PRK_4E3M /\ prk_of (s3 a) = prk_of (s3 b).
(** In any later histories of the two ends, after the same key updates, exports with the same
    label and length agree, and OSCORE contexts agree with the identifiers mirrored. *)
Definition exports_agree (E E' : env) (p : primitives) (c c' : ctx) : Prop :=
  forall ra ea ra1 x ra2 rb eb rb1 y rb2 sk sk',
  @later E c ra ea -> obeys p sk ea -> expands_ok ea -> ra = ra1 ++ x :: ra2 ->
  @later E' c' rb eb -> obeys p sk' eb -> expands_ok eb -> rb = rb1 ++ y :: rb2 ->
  entropies ra1 = entropies rb1 ->
  (forall label n sa sb, 0 <= n < 2 ^ 32 -> export_of x label n sa -> export_of y label n sb -> sa = sb) /\
  (forall n1 n2 sa ta ia ja sb tb ib jb, 0 <= n1 < 2 ^ 32 -> 0 <= n2 < 2 ^ 32 ->
     oscore_of x n1 n2 sa ta ia ja -> oscore_of y n1 n2 sb tb ib jb ->
     sa = sb /\ ta = tb /\ ia = jb /\ ja = ib).
