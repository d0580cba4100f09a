(** No session is accepted twice. *)
From Verif Require Import Monad Rfc Uses Conform Received Sessions Active ActiveProofs Replay.

Lemma pick_distinct : forall A B (P : A -> B -> Prop) (R : A -> A -> Prop) l,
  Forall (fun x => exists y, P x y) l -> (forall x y z, R x y -> P x z -> P y z -> False) ->
  ForallOrdPairs R l -> exists ys, NoDup ys /\ Forall2 P l ys.
Proof.
  intros A B P R l H D O. induction O as [|x l F O IH]; [exists []; split; constructor|].
  inversion_clear H as [|? ? [y Hy] Hl]. destruct (IH Hl) as (ys & N & F2). exists (y :: ys). split; [|now constructor].
  constructor; [|exact N]. intros I.
  assert (Q : exists x', In x' l /\ P x' y).
  { clear - F2 I. induction F2 as [|a b l ys Pa F IH]; [destruct I|]. destruct I as [->|I]; [exists a; split; [now left|exact Pa]|].
    destruct (IH I) as (x' & I' & P'). exists x'. split; [now right|exact P']. }
  destruct Q as (x' & I' & P'). rewrite Forall_forall in F. exact (D _ _ _ (F _ I') Hy P').
Qed.
Lemma distinct_2 : forall (owner : bytes -> session -> Prop) l, Forall (believes_2 owner) l -> ForallOrdPairs fresh_1 l ->
  exists qs, NoDup qs /\ Forall2 (fun p q => (exists pub, owner pub q) /\ answers q /\ se_m1 q = se_m1 p /\
    same_start (se p) (se q) /\ same_answer (se p) (se q)) l qs.
Proof.
  intros owner l H O. apply (pick_distinct _ _ _ fresh_1); [|intros x y z R (_ & _ & _ & (_ & _ & _ & _ & A) & _) (_ & _ & _ & (_ & _ & _ & _ & B) & _); exact (R _ _ _ A B)|exact O].
  eapply Forall_impl; [|exact H]. intros p (P1 & P2 & P3). destruct (responder_static _) eqn:S.
  - destruct P2 as [P2 P4]. destruct (responder_maced _ _ _ _ owner P1 S P2 P4 P3) as (pub & q & Q1 & Q2 & Q3 & Q4 & Q5 & _). exists q. eauto 8.
  - destruct (responder_signed _ _ _ _ owner P1 S P2 (fun pub q Q => proj1 (P3 pub q Q))) as (pub & q & Q1 & Q2 & Q3 & Q4 & Q5 & _). exists q. eauto 8.
Qed.
Lemma distinct_3 : forall (peer : session -> Prop) l, Forall (believes_3 peer) l -> ForallOrdPairs fresh_2 l ->
  exists qs, NoDup qs /\ Forall2 (fun p q => peer q /\ confirms q /\ se_m1 q = se_m1 p /\ same_session (se q) (se p)) l qs.
Proof.
  intros peer l H O. apply (pick_distinct _ _ _ fresh_2); [|intros x y z R (_ & _ & _ & (_ & A & _)) (_ & _ & _ & (_ & B & _)); exact (R _ _ _ A B)|exact O].
  eapply Forall_impl; [|exact H]. intros p (P1 & P2 & P3 & P4 & P5).
  destruct (initiator_sealed _ _ _ _ _ peer P1 P2 P3 P4 P5) as (q & Q1 & Q2 & Q3 & Q4 & _). exists q. auto.
Qed.
Lemma distinct_4 : forall (peer : session -> Prop) l, Forall (believes_4 peer) l -> ForallOrdPairs fresh_1 l ->
  exists qs, NoDup qs /\ Forall2 (fun p q => peer q /\ closes q /\ se_m1 q = se_m1 p /\ same_session (se p) (se q)) l qs.
Proof.
  intros peer l H O. apply (pick_distinct _ _ _ fresh_1); [|intros x y z R (_ & _ & _ & ((_ & _ & _ & _ & A) & _)) (_ & _ & _ & ((_ & _ & _ & _ & B) & _)); exact (R _ _ _ A B)|exact O].
  eapply Forall_impl; [|exact H]. intros p ((P1 & P2 & P3) & P4 & P5 & P6 & P7).
  destruct (responder_closed _ _ _ _ _ _ _ peer P1 P2 P3 P4 P5 P6 P7) as (q & Q1 & Q2 & Q3 & Q4 & _). exists q. auto.
Qed.
