(** Variations of the demonstration environment and checkers, used only by examples.

    No code of /repo is modelled here. *)
From Verif Require Import Monad Api Common Msg1 Msg2 Msg3 Msg4 Exporter History Spec Rfc Uses
  Conform Sessions Policy Facts Demo DemoX.

(** An environment with another expand, verify or process callback. *)
Definition set_expand (g : Z -> list event -> bytes -> bytes -> Z -> Z * bytes) (e : env) : env :=
  Env (@cf_max_suites e) (@cf_max_cid e) (@cf_max_ecc e) (@cf_max_mac e) (@cf_max_ead e) (@cf_max_certs e) (@cf_max_kid e) (@cf_max_alg e)
    (@cf_canon e) (@cf_stack e) (@cf_sizeof_mac e) (@o_alloc e) (@o_import e) (@o_destroy e) (@o_mkpair e) (@o_agree e) (@o_sign e)
    (@o_verify e) (@o_extract e) g (@o_encrypt e) (@o_decrypt e) (@o_hash e) (@o_fetch e) (@o_cverify e) (@o_compose e) (@o_process e).

(** Events added by a history. *)
Definition events_of {E : env} (l : list api) (w : world) : list event :=
  match runs l w with Ret _ w' => firstn (length (w_tr w') - length (w_tr w)) (w_tr w') | Ub _ => [] end.
(** Byte strings it handed out. *)
Definition outs (r : res (list result)) : list bytes :=
  match r with
  | Ret rs _ => flat_map (fun x => match snd (snd x) with OBytes b => [b] | _ => [] end) rs
  | Ub _ => []
  end.
Definition rs_of (r : res (list result)) : list result := match r with Ret rs _ => rs | Ub _ => [] end.
Lemma reach_run : forall (E : env) l rs w, runs l blank = Ret rs w -> reachable w.
Proof. intros E l rs w H. exists ctx0, l, rs. exact H. Qed.
Lemma reach_of : forall (E : env) l, (match runs l blank with Ret _ _ => true | _ => false end) = true ->
  reachable (world_of (runs l blank) blank).
Proof. intros E l H. destruct (runs l blank) as [rs w|] eqn:R; [|discriminate]. cbn [world_of]. now apply (reach_run E l rs). Qed.

Definition toyf (prk i : bytes) (n : Z) : bytes := mixes n (prk ++ i).
Lemma expand_fn_check : forall sk t, evs_ok toy sk t = true -> expand_fn toyf t.
Proof.
  intros sk t H kid i n o prk W. split.
  - exact (proj1 (proj2 (proj2 (proj2 (obeys_check toy sk t H)))) kid i n o prk W).
  - destruct W as (t1 & t2 & -> & _). destruct (obeys_check toy sk _ H) as ((_ & F) & _). apply (F kid i n o). apply in_elt.
Qed.
Definition helpfulb (t : list event) : bool :=
  forallb (fun e => match e with EvAlloc _ _ ok => ok | EvImport _ _ r _ => r =? OK | EvExpand _ _ _ r _ => r =? OK | _ => true end) t.
Lemma helpful_check : forall t, helpfulb t = true -> helpful t.
Proof.
  intros t H. unfold helpfulb in H. rewrite forallb_forall in H. split; [|split].
  - intros b n X. apply H in X. discriminate.
  - intros kt k r kid X. apply H in X. now apply Z.eqb_eq.
  - intros kid i n r o X. apply H in X. now apply Z.eqb_eq.
Qed.
Definition passesb (t : list event) : bool :=
  forallb (fun e => match e with EvEadProcess _ _ r => r =? OK | EvHash _ n r o => (r =? OK) && (zlen o =? n) | _ => true end) t.
Lemma passes_check : forall t, passesb t = true -> passes t.
Proof.
  intros t H. unfold passesb in H. rewrite forallb_forall in H. split.
  - intros m k r X. apply H in X. now apply Z.eqb_eq.
  - intros x n r o X. apply H in X. apply andb_true_iff in X as [A B]. split; now apply Z.eqb_eq.
Qed.
