(** The key store of the classic suites over call histories. *)
From Verif Require Import Bytes Facts Values Monad Psa SuiteX SuiteW SuiteCalls SuiteSpec SuiteLogic SuiteProofs.

Section Store.
Context {L : libs}.
(** A call without all its arguments. *)
Lemma hrun_refuse S a s :
  complete a = false -> (forall kt raw k, a <> HImport kt raw k) ->
  hrun S a s = XRet (HO E_INVALID_ARG None [] []) s.
Proof.
  intros C N. destruct a; cbn in C; try (exfalso; eapply N; reflexivity).
  all: unfold hrun, out1, outk, x_make_key_pair, w_make_key_pair, x_key_agreement, w_key_agreement,
       x_signature, w_signature, x_verify, w_verify, s_extract, s_expand, s_encrypt, s_decrypt, s_hash,
       w_key_destroy, x_key_destroy.
  all: try (destruct S as [S|S]).
  all: repeat match goal with
         | |- context [match ?k with Some _ => _ | None => _ end] =>
           is_var k; destruct k; cbn [handle room filled andb negb] in C
         end.
  all: repeat match type of C with context [negb (?x =? 0)] => destruct (x =? 0); cbn in C end.
  all: repeat match type of C with context [?b] => is_var b; destruct b; cbn in C end.
  all: try discriminate; reflexivity.
Qed.

(** ** The key store *)
Definition attrs_for (S : suite) (kt len : Z) : option attrs :=
  match S with SX s => x_attrs s kt len | SW s => w_attrs s kt len end.
Lemma import_spec S kt raw kid s o s' :
  hrun S (HImport kt raw kid) s = XRet o s' ->
  ho_1 o = [] /\ ho_2 o = [] /\
  ((ho_ret o = OK /\ attrs_for S kt (zlen raw) = None /\ kt = KT_MAKE_KEY_PAIR /\ (exists x, S = SX x) /\ s' = s /\ ho_kid o = kid)
   \/ (ho_ret o = E_CRYPTO /\ x_keys s' = x_keys s /\ (ho_kid o = kid /\ s' = s \/ ho_kid o = Some 0))
   \/ (exists a data id, ho_ret o = OK /\ ho_kid o = Some id /\ attrs_for S kt (zlen raw) = Some a
        /\ id = x_fresh (x_log s) (map fst (x_keys s)) /\ zlen (x_keys s) < KEY_IDS /\ x_keys s' = (id, PK a data) :: x_keys s
        /\ (kt <> KT_MAKE_KEY_PAIR -> data = raw /\ import_ok a raw = true)
        /\ (kt = KT_MAKE_KEY_PAIR -> exists c, curve_of_bits (a_bits a) = Some c /\ data = x_private (x_log s) c))).
Proof.
  wp_start. unfold hrun, outk, attrs_for. destruct S as [S|S].
  - unfold x_key_import. destruct (kt =? KT_MAKE_KEY_PAIR) eqn:M.
    + apply Z.eqb_eq in M. subst kt. wp_go. cbn. repeat split. left. repeat split. eauto.
    + apply Z.eqb_neq in M. destruct (x_attrs S kt (zlen raw)) as [a|] eqn:E.
      * wp_go; try exact I; cbn; (split; [reflexivity|]; split; [reflexivity|]);
          try (right; left; tauto).
        right; right. exists a, raw, (x_fresh (x_log s) (map fst (x_keys s))). repeat split; auto; try congruence; lia.
      * wp_go; cbn. repeat split. right; left. tauto.
  - unfold w_key_import. destruct (w_attrs S kt (zlen raw)) as [a|] eqn:E.
    + destruct (kt =? KT_MAKE_KEY_PAIR) eqn:M;
        [apply Z.eqb_eq in M|apply Z.eqb_neq in M]; wp_go; try exact I; cbn; (split; [reflexivity|]; split; [reflexivity|]);
        try (right; left; tauto); right; right; eexists a, _, _; repeat split; eauto; try congruence; lia.
    + wp_go; cbn. repeat split. right; left. tauto.
Qed.
Lemma destroy_spec S kid s o s' :
  hrun S (HDestroy kid) s = XRet o s' ->
  (kid = None /\ ho_ret o = E_INVALID_ARG /\ s' = s)
  \/ (exists id, kid = Some id /\ ho_kid o = Some 0
       /\ ((ho_ret o = E_CRYPTO /\ x_keys s' = x_keys s)
           \/ (ho_ret o = OK /\ (id = 0 /\ x_keys s' = x_keys s
               \/ id <> 0 /\ find_key id (x_keys s) <> None /\ x_keys s' = drop_key id (x_keys s))))).
Proof.
  wp_start. unfold hrun, outk. destruct S as [S|S]; unfold w_key_destroy, x_key_destroy; wp_go; cbn;
    try (now left); right; eexists; (split; [reflexivity|]); (split; [reflexivity|]); auto; right; (split; [reflexivity|]).
  all: first [left; split; [lia|reflexivity] | right; repeat split; auto; try lia; congruence].
Qed.

Lemma find_key_cons id k l i : find_key i ((id, k) :: l) = if id =? i then Some k else find_key i l.
Proof. unfold find_key. cbn. now destruct (id =? i). Qed.
Lemma find_key_drop id l i : find_key i (drop_key id l) = if i =? id then None else find_key i l.
Proof.
  induction l as [|[j k] l IH].
  - now destruct (i =? id).
  - change (drop_key id ((j, k) :: l)) with (if negb (j =? id) then (j, k) :: drop_key id l else drop_key id l).
    destruct (j =? id) eqn:E; cbn [negb].
    + rewrite IH, find_key_cons. destruct (i =? id) eqn:F; [reflexivity|].
      replace (j =? i) with false; [reflexivity|]. symmetry. lia.
    + rewrite !find_key_cons, IH. destruct (j =? i) eqn:G; [|reflexivity].
      replace (i =? id) with false; [reflexivity|]. lia.
Qed.
Lemma find_key_in id k l : find_key id l = Some k -> In id (map fst l).
Proof.
  induction l as [|[j e] l IH]; [discriminate|]. rewrite find_key_cons. cbn.
  destruct (j =? id) eqn:E; [left; lia|auto].
Qed.

Lemma imported_snoc h a o id kt raw :
  imported (h ++ [(a, o)]) id kt raw <->
  ((exists k, a = HImport kt raw k) /\ o = HO OK (Some id) [] [])
  \/ (imported h id kt raw /\ ~ (a = HDestroy (Some id) /\ ho_ret o = OK)).
Proof.
  split.
  - intros (h1 & h2 & k & E & D). destruct h2 as [|x h2] using rev_ind.
    + apply app_inj_tail in E. destruct E as [_ E]. injection E as -> ->. left. eauto.
    + clear IHh2. rewrite app_comm_cons, app_assoc in E. apply app_inj_tail in E. destruct E as [-> <-].
      right. split.
      * exists h1, h2, k. split; [reflexivity|]. intros o1 I. apply D. apply in_app_iff. auto.
      * intros [-> R]. apply (D o); [|exact R]. apply in_app_iff. right. now left.
  - intros [[[k ->] ->]|[(h1 & h2 & k & -> & D) N]].
    + exists h, [], k. split; [reflexivity|]. intros ? [].
    + exists h1, (h2 ++ [(a, o)]), k. split; [now rewrite <- app_assoc|].
      intros o1 I. apply in_app_iff in I. destruct I as [I|[I|[]]]; [now apply D|].
      injection I as -> ->. tauto.
Qed.

(** The store holds exactly the imported keys. *)
Definition keyed (S : suite) (h : list (hcall * hout)) (s : xst) : Prop :=
  (forall id k, find_key id (x_keys s) = Some k -> 0x40000000 <= id <= 0x7fffffff /\
     exists kt raw, imported h id kt raw /\ attrs_for S kt (zlen raw) = Some (k_attr k)
       /\ (kt <> KT_MAKE_KEY_PAIR -> k_data k = raw /\ import_ok (k_attr k) raw = true))
  /\ (forall id kt raw a, imported h id kt raw -> attrs_for S kt (zlen raw) = Some a ->
       exists k, find_key id (x_keys s) = Some k /\ k_attr k = a /\ (kt <> KT_MAKE_KEY_PAIR -> k_data k = raw)
         /\ (kt = KT_MAKE_KEY_PAIR -> exists l c, curve_of_bits (a_bits a) = Some c /\ k_data k = x_private l c)).
Lemma keyed_step S (FI : fresh_ids L) h s a o s' :
  keyed S h s -> hrun S a s = XRet o s' -> keyed S (h ++ [(a, o)]) s'.
Proof.
  intros [K1 K2] R.
  destruct (store_same a) eqn:SS.
  { pose proof (po_keys _ _ _ _ (hrun_post' _ _ _ _ _ R) SS) as EK.
    assert (IM : forall id kt raw, imported (h ++ [(a, o)]) id kt raw <-> imported h id kt raw).
    { intros. rewrite imported_snoc. split; [|right; split; [assumption|intros [-> _]; discriminate]].
      intros [[[k ->] _]|[I _]]; [discriminate|exact I]. }
    split.
    - intros id k. rewrite EK. intros F. destruct (K1 _ _ F) as (B & kt & raw & I & Q). split; [exact B|]. exists kt, raw. now rewrite IM.
    - intros id kt raw at_. rewrite IM, EK. apply K2. }
  destruct a as [kt raw kid|kid| | | | | | | | | ]; try discriminate SS.
  - destruct (import_spec _ _ _ _ _ _ _ R) as (O1 & O2 & [(O & A & ? & _ & ? & Ok)|[(O & EK & _)|(a & data & id & O & Ok & A & Ei & ZK & EK & D & DP)]]).
    + subst (* X: nothing happens *).
      split.
      * intros id k F. destruct (K1 _ _ F) as (B & kt & raw' & I & Q). split; [exact B|]. exists kt, raw'. split; [|exact Q].
        apply imported_snoc. right. split; [exact I|]. intros [? _]; discriminate.
      * intros id kt raw' at_ I A'. apply imported_snoc in I. destruct I as [[[k Ek] _]|[I _]].
        -- injection Ek as <- <-. congruence.
        -- eauto.
    + split.
      * intros id k. rewrite EK. intros F. destruct (K1 _ _ F) as (B & kt' & raw' & I & Q). split; [exact B|]. exists kt', raw'. split; [|exact Q].
        apply imported_snoc. right. split; [exact I|]. intros [? _]; discriminate.
      * intros id kt' raw' at_ I A'. rewrite EK. apply imported_snoc in I. destruct I as [[_ Eo]|[I _]].
        -- subst o. discriminate.
        -- eauto.
    + destruct (FI (x_log s) (map fst (x_keys s)) ltac:(rewrite zlen_map; exact ZK)) as [NI RG]. rewrite <- Ei in NI, RG.
      split.
      * intros i k. rewrite EK, find_key_cons. destruct (id =? i) eqn:E.
        -- apply Z.eqb_eq in E. subst i. intros [= <-]. split; [exact RG|]. exists kt, raw. split; [|split; [exact A|]].
           ++ apply imported_snoc. left. split; [eauto|]. destruct o; cbn in *. congruence.
           ++ exact D.
        -- intros F. destruct (K1 _ _ F) as (B & kt' & raw' & I & Q). split; [exact B|]. exists kt', raw'. split; [|exact Q].
           apply imported_snoc. right. split; [exact I|]. intros [? _]; discriminate.
      * intros i kt' raw' at_ I A'. rewrite EK, find_key_cons. apply imported_snoc in I. destruct I as [[[k Ek] Eo]|[I _]].
        -- injection Ek as <- <- <-. subst o. injection Ok as <-. rewrite Z.eqb_refl. eexists. split; [reflexivity|]. cbn.
           split; [congruence|]. split; [intros N; now apply D|].
           intros N. destruct (DP N) as (c & E1 & E2). replace at_ with a by congruence. eauto.
        -- destruct (K2 _ _ _ _ I A') as (k & F & Q). destruct (id =? i) eqn:E; [|eauto].
           apply Z.eqb_eq in E. subst i. exfalso. apply NI. eapply find_key_in; eauto.
  - destruct (destroy_spec _ _ _ _ _ R) as [(-> & O & ->)|(id & -> & _ & [(O & EK)|(O & [(-> & EK)|(NZ & _ & EK)])])].
    + split.
      * intros id k F. destruct (K1 _ _ F) as (B & kt & raw' & I & Q). split; [exact B|]. exists kt, raw'. split; [|exact Q].
        apply imported_snoc. right. split; [exact I|]. intros [? _]; discriminate.
      * intros id kt raw' at_ I A'. apply imported_snoc in I. destruct I as [[[k Ek] _]|[I _]]; [discriminate|eauto].
    + split.
      * intros i k. rewrite EK. intros F. destruct (K1 _ _ F) as (B & kt & raw' & I & Q). split; [exact B|]. exists kt, raw'. split; [|exact Q].
        apply imported_snoc. right. split; [exact I|]. intros [_ E]. rewrite O in E. discriminate.
      * intros i kt raw' at_ I A'. rewrite EK. apply imported_snoc in I. destruct I as [[[k Ek] _]|[I _]]; [discriminate|eauto].
    + split.
      * intros i k. rewrite EK. intros F. destruct (K1 _ _ F) as (B & kt & raw' & I & Q). split; [exact B|]. exists kt, raw'. split; [|exact Q].
        apply imported_snoc. right. split; [exact I|]. intros [[= <-] _]. lia.
      * intros i kt raw' at_ I A'. rewrite EK. apply imported_snoc in I. destruct I as [[[k Ek] _]|[I _]]; [discriminate|eauto].
    + split.
      * intros i k. rewrite EK, find_key_drop. destruct (i =? id) eqn:E; [discriminate|]. intros F.
        destruct (K1 _ _ F) as (B & kt & raw' & I & Q). split; [exact B|]. exists kt, raw'. split; [|exact Q].
        apply imported_snoc. right. split; [exact I|]. intros [[= <-] _]. rewrite Z.eqb_refl in E. discriminate.
      * intros i kt raw' at_ I A'. rewrite EK, find_key_drop. apply imported_snoc in I.
        destruct I as [[[k Ek] _]|[I N]]; [discriminate|].
        replace (i =? id) with false; [eauto|]. symmetry. apply Z.eqb_neq. intros <-. tauto.
Qed.

(** ** Histories *)
Lemma hruns_ind S (P : list (hcall * hout) -> xst -> Prop) :
  (forall h s a o s', P h s -> hrun S a s = XRet o s' -> P (h ++ [(a, o)]) s') ->
  forall l s h s' h0, P h0 s -> hruns S l s = XRet h s' -> P (h0 ++ h) s'.
Proof.
  intros ST. induction l as [|a l IH]; cbn; intros s h s' h0 P0 R.
  - injection R as <- <-. now rewrite app_nil_r.
  - destruct (hrun S a s) as [o s1|] eqn:E; [|discriminate].
    destruct (hruns S l s1) as [os s2|] eqn:E2; [|discriminate]. injection R as <- <-.
    replace (h0 ++ (a, o) :: os) with ((h0 ++ [(a, o)]) ++ os) by now rewrite <- app_assoc.
    eapply IH; eauto.
Qed.
Lemma keyed_runs S (FI : fresh_ids L) l h s : hruns S l xs0 = XRet h s -> keyed S h s.
Proof.
  intros R. change h with ([] ++ h). eapply hruns_ind; [|split|exact R].
  - intros; eapply keyed_step; eauto.
  - intros id k F. discriminate.
  - intros id kt raw a (h1 & h2 & k & E & _). destruct h1; discriminate.
Qed.
Lemma closed_runs S l s h s' : closed s -> hruns S l s = XRet h s' -> closed s'.
Proof.
  intros C R. change (closed s') with ((fun (_ : list (hcall * hout)) s => closed s) ([] ++ h) s').
  eapply hruns_ind; [|exact C|exact R]. intros ? ? ? ? ? C1 E. exact (po_closed _ _ _ _ (hrun_post' _ _ _ _ _ E) C1).
Qed.
End Store.
