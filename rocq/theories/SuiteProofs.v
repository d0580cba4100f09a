(** Facts about every call of the classic suites. *)
From Verif Require Import Bytes Facts Values Monad Psa SuiteX SuiteW SuiteCalls SuiteSpec SuiteLogic.

Definition codes := [OK; E_INVALID_ARG; E_CRYPTO].
Definition store_same (a : hcall) : bool := match a with HImport _ _ _ | HDestroy _ => false | _ => true end.
Record post (a : hcall) (s : xst) (o : hout) (s' : xst) : Prop := {
  po_log : exists l, x_log s' = l ++ x_log s /\ (ho_ret o = OK -> Forall (fun e => snd e = 0) l);
  po_closed : closed s -> closed s';
  po_code : In (ho_ret o) codes;
  po_arg : ho_ret o = E_INVALID_ARG -> s' = s;
  po_slots : x_slots s' = x_slots s;
  po_keys : store_same a = true -> x_keys s' = x_keys s
}.
Ltac po_log :=
  match goal with
  | |- exists l, ?t = l ++ ?u /\ _ =>
    let rec go acc t :=
      lazymatch t with
      | u => exists (rev acc)
      | ?e :: ?r => go (e :: acc) r
      end in
    let t := eval cbn [x_log log set_op set_pk set_keys set_slots] in t in
    go (@nil (xcall * Z)) t
  end; split; [reflexivity|]; cbn [rev app ho_ret];
  first [discriminate | intros _; repeat constructor; reflexivity].
Ltac po_tac :=
  cbv beta iota;
  constructor;
  [ po_log
  | intros [? ?]; split; cbn; auto; try congruence
  | cbn; tauto
  | cbn; first [reflexivity | discriminate | intros; subst; try reflexivity]
  | cbn; auto
  | cbn; auto; try discriminate ].
Section Facts.
Context {L : libs}.
Lemma hrun_post S a s : wp (fun _ => True) (hrun S a) s (post a s).
Proof.
  destruct a; unfold hrun, out1, outk; try (destruct S as [S|S]);
    (wp_go; try exact I; try po_tac; [..]).
  destruct (x_ecdsa_ok _ _ _ _); [po_tac|discriminate].
Qed.
Lemma hrun_post' S a s o s' : hrun S a s = XRet o s' -> post a s o s'.
Proof. apply wp_intro, hrun_post. Qed.

End Facts.
