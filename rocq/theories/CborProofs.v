(** Round trips of the CBOR items. *)
From Verif Require Import Monad Facts.

Lemma zlen_be : forall n v, zlen (be n v) = Z.of_nat n.
Proof. induction n as [|n IH]; intro v; [reflexivity|]. cbn [be]. rewrite zlen_app, IH, zlen_cons, zlen_nil. lia. Qed.
Lemma unbe_app : forall a b, unbe (a ++ [b]) = unbe a * 256 + b.
Proof. intros. unfold unbe. rewrite fold_left_app. reflexivity. Qed.
Lemma unbe_be : forall n v, 0 <= v < 256 ^ Z.of_nat n -> unbe (be n v) = v.
Proof.
  induction n as [|n IH]; intros v H.
  - cbn in *. lia.
  - cbn [be]. rewrite unbe_app, IH.
    + pose proof (Z.div_mod v 256). lia.
    + rewrite Nat2Z.inj_succ, Z.pow_succ_r in H by lia.
      split; [apply Z.div_pos; lia|]. apply Z.div_lt_upper_bound; lia.
Qed.

Lemma head_mod : forall maj x, 0 <= x < 32 -> (maj * 32 + x) mod 32 = x.
Proof. intros. rewrite Z.add_comm, Z.mod_add by lia. apply Z.mod_small; lia. Qed.
Lemma head_div : forall maj x, 0 <= x < 32 -> (maj * 32 + x) / 32 = maj.
Proof. intros. rewrite Z.add_comm, Z.div_add by lia. rewrite Z.div_small by lia. lia. Qed.

Definition argmax (maxb : Z) (v : Z) : Prop := maxb = 4 /\ v < 2 ^ 32 \/ maxb = 8 /\ v < 2 ^ 64.

Lemma head_major : forall ec maj v r, 0 <= v < 2 ^ 64 ->
  next_major (DS ec (enc_head maj v ++ r)) = Some maj.
Proof.
  intros ec maj v r H. unfold next_major, enc_head. cbn [d_rest].
  destruct (v <? 24) eqn:A; cbn [app].
  - rewrite head_div by lia. reflexivity.
  - destruct (v <? 256); cbn [app]; [rewrite head_div by lia; reflexivity|].
    destruct (v <? 65536); cbn [app]; [rewrite head_div by lia; reflexivity|].
    destruct (v <? 2 ^ 32); cbn [app]; rewrite head_div by lia; reflexivity.
Qed.
Lemma unbe_1 : forall v, unbe [v] = v.
Proof. intro. reflexivity. Qed.
Lemma head_value : forall maxb ec maj v r, 0 < ec -> 0 <= v -> argmax maxb v ->
  value_extract_raw maxb (DS ec (enc_head maj v ++ r)) = Some (v, true, DS (ec - 1) r).
Proof.
  intros maxb ec maj v r He Hv Hm. unfold value_extract_raw. cbn [d_ec d_rest].
  replace (ec <=? 0) with false by lia.
  unfold enc_head.
  destruct (v <? 24) eqn:A; cbn [app].
  { rewrite head_mod by lia. rewrite A. reflexivity. }
  destruct (v <? 256) eqn:B; cbn [app].
  { rewrite head_mod by lia. change (24 <? 24) with false. change (27 <? 24) with false.
    change (2 ^ (24 - 24)) with 1. cbv iota zeta.
    replace (maxb <? 1) with false by (destruct Hm; lia).
    rewrite zlen_cons. pose proof (zlen_nonneg _ r). replace (1 + zlen r <? 1) with false by lia.
    replace (take 1 (v :: r)) with [v] by reflexivity. replace (drop 1 (v :: r)) with r by reflexivity.
    rewrite unbe_1. unfold head_extra. rewrite A, B. reflexivity. }
  destruct (v <? 65536) eqn:C.
  { cbn [app]. rewrite head_mod by lia. change (25 <? 24) with false. change (27 <? 25) with false.
    change (2 ^ (25 - 24)) with 2. cbv iota zeta.
    replace (maxb <? 2) with false by (destruct Hm; lia).
    rewrite zlen_app, zlen_be. pose proof (zlen_nonneg _ r).
    replace (Z.of_nat 2 + zlen r <? 2) with false by lia.
    rewrite take_app_exact by apply zlen_be. rewrite drop_app_exact by apply zlen_be.
    rewrite unbe_be by (change (256 ^ Z.of_nat 2) with 65536; lia).
    unfold head_extra. rewrite A, B, C. reflexivity. }
  destruct (v <? 2 ^ 32) eqn:D.
  { cbn [app]. rewrite head_mod by lia. change (26 <? 24) with false. change (27 <? 26) with false.
    change (2 ^ (26 - 24)) with 4. cbv iota zeta.
    replace (maxb <? 4) with false by (destruct Hm; lia).
    rewrite zlen_app, zlen_be. pose proof (zlen_nonneg _ r).
    replace (Z.of_nat 4 + zlen r <? 4) with false by lia.
    rewrite take_app_exact by apply zlen_be. rewrite drop_app_exact by apply zlen_be.
    rewrite unbe_be by (change (256 ^ Z.of_nat 4) with (2 ^ 32); lia).
    unfold head_extra. rewrite A, B, C, D. reflexivity. }
  cbn [app]. rewrite head_mod by lia. change (27 <? 24) with false. change (27 <? 27) with false.
  change (2 ^ (27 - 24)) with 8. cbv iota zeta.
  replace (maxb <? 8) with false by (destruct Hm; lia).
  rewrite zlen_app, zlen_be. pose proof (zlen_nonneg _ r).
  replace (Z.of_nat 8 + zlen r <? 8) with false by lia.
  rewrite take_app_exact by apply zlen_be. rewrite drop_app_exact by apply zlen_be.
  rewrite unbe_be by (change (256 ^ Z.of_nat 8) with (2 ^ 64); destruct Hm; lia).
  unfold head_extra. rewrite A, B, C, D. reflexivity.
Qed.
Lemma head_value' : forall canon maxb ec maj v r, 0 < ec -> 0 <= v -> argmax maxb v ->
  value_extract canon maxb (DS ec (enc_head maj v ++ r)) = Some (v, DS (ec - 1) r).
Proof.
  intros. unfold value_extract. rewrite head_value by assumption. now rewrite andb_false_r.
Qed.

Definition size_ok (b : bytes) : Prop := zlen b < 2 ^ 64.

Lemma some_inj : forall A (x y : A), Some x = Some y -> y = x.
Proof. congruence. Qed.
Ltac someinv H := apply some_inj in H; subst.

Section Items.
Variable canon : bool.

Lemma int_rt : forall v ec r, int32 v -> 0 < ec ->
  dec_int32 canon (DS ec (enc_int v ++ r)) = Some (v, DS (ec - 1) r).
Proof.
  intros v ec r H He. unfold int32 in H. unfold enc_int, dec_int32. destruct (v <? 0) eqn:N.
  - rewrite head_major by lia. cbn [Z.eqb orb Pos.eqb]. rewrite head_value'; [|lia|lia|left; lia].
    replace (-1 - v <? 2 ^ 31) with true by lia. f_equal. f_equal. lia.
  - rewrite head_major by lia. cbn [Z.eqb orb Pos.eqb]. rewrite head_value'; [|lia|lia|left; lia].
    replace (v <? 2 ^ 31) with true by lia. reflexivity.
Qed.
Lemma str_p_rt : forall maj b ec r old, size_ok b -> 0 < ec ->
  dec_str_p canon maj old (DS ec (enc_head maj (zlen b) ++ b ++ r)) =
  (true, ZS (zlen b) (Some (b ++ r)), DS (ec - 1) r).
Proof.
  intros maj b ec r old H He. unfold size_ok in H. unfold dec_str_p.
  pose proof (zlen_nonneg _ b). rewrite head_major by lia. rewrite Z.eqb_refl.
  rewrite head_value; [|lia|lia|right; lia]. cbn [d_rest d_ec negb].
  rewrite andb_false_r. rewrite zlen_app. pose proof (zlen_nonneg _ r).
  replace (zlen b + zlen r <? zlen b) with false by lia.
  rewrite drop_app_exact by reflexivity. reflexivity.
Qed.
Lemma str_rt : forall maj b ec r, size_ok b -> 0 < ec ->
  dec_str canon maj (DS ec (enc_head maj (zlen b) ++ b ++ r)) = Some (b, DS (ec - 1) r).
Proof.
  intros. unfold dec_str. rewrite str_p_rt by assumption. now rewrite take_app_exact.
Qed.
Lemma bstr_rt : forall b ec r, size_ok b -> 0 < ec ->
  dec_bstr canon (DS ec (enc_bstr b ++ r)) = Some (b, DS (ec - 1) r).
Proof. intros. unfold enc_bstr, dec_bstr. rewrite <- app_assoc. now apply str_rt. Qed.
Lemma tstr_rt : forall b ec r, size_ok b -> 0 < ec ->
  dec_tstr canon (DS ec (enc_tstr b ++ r)) = Some (b, DS (ec - 1) r).
Proof. intros. unfold enc_tstr, dec_tstr. rewrite <- app_assoc. now apply str_rt. Qed.
Lemma list_start_rt : forall n ec r, 0 <= n < 2 ^ 64 -> 0 < ec ->
  list_start canon (DS ec (enc_head 4 n ++ r)) = Some (ec - 1, DS n r).
Proof.
  intros. unfold list_start. rewrite head_major by lia. cbn [Z.eqb orb Pos.eqb].
  rewrite head_value'; [reflexivity|lia|lia|right; lia].
Qed.
Lemma map_start_rt : forall n ec r, 0 <= n < 2 ^ 64 -> 0 < ec ->
  map_start canon (DS ec (enc_head 5 n ++ r)) = Some (ec - 1, DS (2 * n) r).
Proof.
  intros. unfold map_start. rewrite head_major by lia. cbn [Z.eqb orb Pos.eqb].
  rewrite head_value'; [reflexivity|lia|lia|right; lia].
Qed.
Lemma uint_rt : forall k ec r, 0 <= k < 2 ^ 31 -> 0 < ec ->
  expect_uint canon k (DS ec (enc_int k ++ r)) = Some (DS (ec - 1) r).
Proof.
  intros k ec r H He. unfold expect_uint, enc_int. replace (k <? 0) with false by lia.
  rewrite head_major by lia. cbn [Z.eqb orb Pos.eqb]. rewrite head_value'; [|lia|lia|left; lia]. now rewrite Z.eqb_refl.
Qed.
(** Items of another major type are not mistaken. *)
Lemma int_not_str : forall maj v ec r old, int32 v -> 1 < maj ->
  dec_str_p canon maj old (DS ec (enc_int v ++ r)) = (false, old, DS ec (enc_int v ++ r)).
Proof.
  intros maj v ec r old H Hm. unfold int32 in H. unfold dec_str_p, enc_int.
  destruct (v <? 0) eqn:N; rewrite head_major by lia; [replace (1 =? maj) with false by lia|replace (0 =? maj) with false by lia]; reflexivity.
Qed.
Lemma head_not_int : forall maj v ec r, 1 < maj -> 0 <= v < 2 ^ 64 ->
  dec_int32 canon (DS ec (enc_head maj v ++ r)) = None.
Proof.
  intros. unfold dec_int32. rewrite head_major by lia.
  replace (maj =? 0) with false by lia. replace (maj =? 1) with false by lia. reflexivity.
Qed.
Lemma head_not_str : forall maj maj' v ec r old, maj <> maj' -> 0 <= v < 2 ^ 64 ->
  dec_str_p canon maj' old (DS ec (enc_head maj v ++ r)) = (false, old, DS ec (enc_head maj v ++ r)).
Proof.
  intros. unfold dec_str_p. rewrite head_major by lia. replace (maj =? maj') with false by lia. reflexivity.
Qed.
Lemma head_not_list : forall maj v ec r, maj <> 4 -> 0 <= v < 2 ^ 64 ->
  list_start canon (DS ec (enc_head maj v ++ r)) = None.
Proof.
  intros. unfold list_start. rewrite head_major by lia. replace (maj =? 4) with false by lia. reflexivity.
Qed.
Lemma int_not_list : forall v ec r, int32 v -> list_start canon (DS ec (enc_int v ++ r)) = None.
Proof.
  intros v ec r H. unfold int32 in H. unfold list_start, enc_int.
  destruct (v <? 0) eqn:N; rewrite head_major by lia; reflexivity.
Qed.
Lemma int_not_expect : forall v k ec r, int32 v -> v <> k ->
  expect_uint canon k (DS ec (enc_int v ++ r)) = None.
Proof.
  intros v k ec r H Hk. unfold int32 in H. unfold expect_uint, enc_int, value_extract.
  destruct (v <? 0) eqn:N; rewrite head_major by lia; [reflexivity|]. cbn [Z.eqb].
  destruct (Z.leb_spec ec 0).
  - unfold value_extract_raw. cbn [d_ec]. replace (ec <=? 0) with true by lia. reflexivity.
  - rewrite head_value; [|lia|lia|left; lia]. rewrite andb_false_r.
    replace (v =? k) with false by lia. reflexivity.
Qed.

(** Sequences of integers and byte strings inside arrays. *)
Lemma multi_loop_rt : forall A (f : dst -> option (A * dst)) (enc : A -> bytes) (ok : A -> Prop),
  (forall a ec r, ok a -> 0 < ec -> f (DS ec (enc a ++ r)) = Some (a, DS (ec - 1) r)) ->
  (forall ec r, ec <= 0 -> f (DS ec r) = None) ->
  forall l n r, Forall ok l -> (length l <= n)%nat ->
  multi_loop n f (DS (zlen l) (concat (map enc l) ++ r)) = (l, DS 0 r).
Proof.
  intros A f enc ok Hf Hz. induction l as [|a l IH]; intros n r Hl Hn.
  - cbn [map concat app]. rewrite zlen_nil. destruct n; [reflexivity|]. cbn [multi_loop].
    rewrite Hz by lia. reflexivity.
  - destruct n as [|n]; [cbn in Hn; lia|]. cbn [map concat multi_loop]. rewrite <- app_assoc.
    inversion Hl; subst. pose proof (zlen_nonneg _ l). rewrite Hf; [|assumption|rewrite zlen_cons; lia].
    replace (zlen (a :: l) - 1) with (zlen l) by (rewrite zlen_cons; lia).
    rewrite IH; [reflexivity|assumption|cbn in Hn; lia].
Qed.
Lemma int_ec0 : forall ec r, ec <= 0 -> dec_int32 canon (DS ec r) = None.
Proof.
  intros. unfold dec_int32. destruct (next_major _); [|reflexivity]. destruct (_ || _); [|reflexivity].
  unfold value_extract, value_extract_raw. cbn [d_ec]. replace (ec <=? 0) with true by lia. reflexivity.
Qed.
Lemma str_ec0 : forall maj ec r, ec <= 0 -> dec_str canon maj (DS ec r) = None.
Proof.
  intros. unfold dec_str, dec_str_p. destruct (next_major _); [|reflexivity]. destruct (_ =? _); [|reflexivity].
  unfold value_extract_raw. cbn [d_ec]. replace (ec <=? 0) with true by lia. reflexivity.
Qed.

Definition suites_ok (s : suites) : Prop :=
  match s with SuInt v => int32 v | SuList l => 2 <= zlen l <= 3 /\ Forall int32 l end.
Lemma suites_enc_some : forall s, suites_ok s -> exists b, enc_suites s = Some b.
Proof.
  intros [v|l] H; cbn [enc_suites suites_ok] in *; [eauto|]. destruct H as [H _].
  replace ((2 <=? zlen l) && (zlen l <=? 3)) with true by lia. eauto.
Qed.
Lemma suites_p_rt : forall s b ec r, suites_ok s -> enc_suites s = Some b -> 0 < ec ->
  dec_suites_p canon (DS ec (b ++ r)) =
  (match s with SuInt v => SR true 1 [] v | SuList l => SR true 0 l 0 end, DS (ec - 1) r).
Proof.
  intros s b ec r Hs Hb He. unfold dec_suites_p. destruct s as [v|l]; cbn [enc_suites suites_ok] in *.
  - someinv Hb. rewrite int_not_list, int_rt by assumption. reflexivity.
  - destruct Hs as [H Hl]. replace ((2 <=? zlen l) && (zlen l <=? 3)) with true in Hb by lia.
    someinv Hb. rewrite <- app_assoc. rewrite list_start_rt by lia.
    unfold multi. rewrite (multi_loop_rt _ _ enc_int int32);
      [|intros; now apply int_rt|apply int_ec0|assumption|unfold zlen in H; lia].
    replace (2 <=? length l)%nat with true by (symmetry; apply Nat.leb_le; unfold zlen in H; lia).
    unfold list_end. cbn [d_ec Z.eqb d_rest]. reflexivity.
Qed.
Lemma suites_rt : forall s b ec r, suites_ok s -> enc_suites s = Some b -> 0 < ec ->
  dec_suites canon (DS ec (b ++ r)) = Some (s, DS (ec - 1) r).
Proof.
  intros. unfold dec_suites. erewrite suites_p_rt by eassumption. destruct s; reflexivity.
Qed.

Definition cidv_ok (c : cidv) : Prop :=
  match c with CidInt v => -24 <= v <= 23 | CidBstr b => size_ok b end.
Lemma cidv_rt : forall c b ec r, cidv_ok c -> enc_cidv c = Some b -> 0 < ec ->
  dec_cidv canon (DS ec (b ++ r)) = Some (c, DS (ec - 1) r).
Proof.
  intros c b ec r Hc Hb He. unfold dec_cidv. destruct c as [v|s]; cbn [enc_cidv cidv_ok] in *.
  - replace ((-24 <=? v) && (v <=? 23)) with true in Hb by lia. someinv Hb.
    assert (int32 v) by (unfold int32; lia).
    unfold dec_bstr, dec_str. rewrite int_not_str by (assumption || lia).
    rewrite int_rt by assumption. replace ((-24 <=? v) && (v <=? 23)) with true by lia. reflexivity.
  - someinv Hb. rewrite bstr_rt by assumption. reflexivity.
Qed.

(** ID_CRED_x as written in a plaintext. *)
Definition id_ok (i : id_cred) : Prop :=
  match i with
  | IdKid (KidInt v) => int32 v
  | IdKid (KidBstr b) => size_ok b
  | IdChain (ChOne b) => size_ok b
  | IdChain (ChList l) => 2 <= zlen l <= 3 /\ Forall size_ok l
  | IdHash (AlgInt v) fp => int32 v /\ size_ok fp
  | IdHash (AlgTstr b) fp => size_ok b /\ size_ok fp
  end.
Definition cmap_of (i : id_cred) : cmap :=
  match i with
  | IdKid k => CMap (Some k) None None
  | IdChain c => CMap None (Some c) None
  | IdHash a fp => CMap None None (Some (a, fp))
  end.
Lemma bstr_not_int : forall b ec r, size_ok b -> dec_int32 canon (DS ec (enc_bstr b ++ r)) = None.
Proof.
  intros b ec r H. unfold enc_bstr. rewrite <- app_assoc. pose proof (zlen_nonneg _ b).
  apply head_not_int; [lia|]. unfold size_ok in H. lia.
Qed.
Lemma tstr_not_int : forall b ec r, size_ok b -> dec_int32 canon (DS ec (enc_tstr b ++ r)) = None.
Proof.
  intros b ec r H. unfold enc_tstr. rewrite <- app_assoc. pose proof (zlen_nonneg _ b).
  apply head_not_int; [lia|]. unfold size_ok in H. lia.
Qed.
Lemma dec_str_head_none : forall maj maj' v ec r, maj <> maj' -> 0 <= v < 2 ^ 64 ->
  dec_str canon maj' (DS ec (enc_head maj v ++ r)) = None.
Proof. intros. unfold dec_str. rewrite head_not_str by assumption. reflexivity. Qed.
Lemma expect_ec0 : forall k ec r, ec <= 0 -> expect_uint canon k (DS ec r) = None.
Proof.
  intros. unfold expect_uint. destruct (next_major _); [|reflexivity]. destruct (_ =? _); [|reflexivity].
  unfold value_extract, value_extract_raw. cbn [d_ec]. replace (ec <=? 0) with true by lia. reflexivity.
Qed.
Lemma present_some : forall A (f : dst -> option (A * dst)) s a s', f s = Some (a, s') -> present f s = (Some a, s').
Proof. intros. unfold present. now rewrite H. Qed.
Lemma present_none : forall A (f : dst -> option (A * dst)) s, f s = None -> present f s = (None, s).
Proof. intros. unfold present. now rewrite H. Qed.
Lemma map_kid_rt : forall k ec r, id_ok (IdKid k) -> 1 < ec ->
  dec_map_kid canon (DS ec (enc_int 4 ++ enc_kidv k ++ r)) = Some (k, DS (ec - 2) r).
Proof.
  intros k ec r H He. unfold dec_map_kid. rewrite uint_rt by lia.
  replace (ec - 2) with (ec - 1 - 1) by lia.
  destruct k as [v|s]; cbn [enc_kidv id_ok] in *.
  - rewrite int_rt by (assumption || lia). reflexivity.
  - rewrite bstr_not_int by assumption. rewrite bstr_rt by (assumption || lia). reflexivity.
Qed.
Lemma len_2 : forall A (l : list A), 2 <= zlen l -> (2 <=? length l)%nat = true.
Proof. intros A l H. unfold zlen in H. apply Nat.leb_le. lia. Qed.
Lemma map_chain_rt : forall c cb ec r, id_ok (IdChain c) -> enc_chainv c = Some cb -> 1 < ec ->
  dec_map_chain canon (DS ec (enc_int 33 ++ cb ++ r)) = Some (c, DS (ec - 2) r).
Proof.
  intros c cb ec r Hi C He. unfold dec_map_chain. rewrite uint_rt by lia.
  replace (ec - 2) with (ec - 1 - 1) by lia.
  destruct c as [s|l]; cbn [enc_chainv id_ok] in *.
  - someinv C. rewrite bstr_rt by (assumption || lia). reflexivity.
  - destruct Hi as [H Hl]. replace ((2 <=? zlen l) && (zlen l <=? 3)) with true in C by lia.
    someinv C. rewrite <- app_assoc.
    unfold dec_bstr at 1. rewrite dec_str_head_none by lia.
    rewrite list_start_rt by lia. unfold multi.
    rewrite (multi_loop_rt _ _ enc_bstr size_ok);
      [|intros; now apply bstr_rt|intros; now apply str_ec0|assumption|unfold zlen in H; lia].
    rewrite len_2 by lia. reflexivity.
Qed.
Lemma map_x5t_rt : forall a fp ec r, id_ok (IdHash a fp) -> 1 < ec ->
  dec_map_x5t canon (DS ec (enc_int 34 ++ enc_head 4 2 ++ enc_algv a ++ enc_bstr fp ++ r)) =
  Some ((a, fp), DS (ec - 2) r).
Proof.
  intros a fp ec r Hi He. unfold dec_map_x5t. rewrite uint_rt by lia. rewrite list_start_rt by lia.
  replace (ec - 2) with (ec - 1 - 1) by lia.
  assert (F : size_ok fp) by (destruct a; apply Hi).
  destruct a as [v|s]; cbn [enc_algv id_ok] in *; destruct Hi as [H _].
  - rewrite int_rt by (assumption || lia). rewrite bstr_rt by (assumption || lia). reflexivity.
  - rewrite tstr_not_int by assumption. rewrite tstr_rt by (assumption || lia).
    rewrite bstr_rt by (assumption || lia). reflexivity.
Qed.
Lemma map_rt : forall i b ec r, id_ok i -> enc_id_cred i = Some b -> 0 < ec ->
  dec_map canon (DS ec (b ++ r)) = Some (cmap_of i, DS (ec - 1) r).
Proof.
  intros i b ec r Hi Hb He. unfold dec_map.
  assert (I33 : int32 33) by (unfold int32; lia).
  assert (I34 : int32 34) by (unfold int32; lia).
  destruct i as [k|c|a fp]; cbn [enc_id_cred] in Hb.
  - someinv Hb. rewrite <- !app_assoc, map_start_rt by lia.
    rewrite (present_some _ _ _ _ _ (map_kid_rt k (2 * 1) r Hi eq_refl)).
    rewrite present_none by (unfold dec_map_chain; rewrite expect_ec0 by lia; reflexivity).
    rewrite present_none by (unfold dec_map_x5t; rewrite expect_ec0 by lia; reflexivity).
    reflexivity.
  - destruct (enc_chainv c) as [cb|] eqn:C; [|discriminate]. someinv Hb.
    rewrite <- !app_assoc, map_start_rt by lia.
    rewrite present_none by (unfold dec_map_kid; rewrite int_not_expect by (assumption || lia); reflexivity).
    rewrite (present_some _ _ _ _ _ (map_chain_rt c cb (2 * 1) r Hi C eq_refl)).
    rewrite present_none by (unfold dec_map_x5t; rewrite expect_ec0 by lia; reflexivity).
    reflexivity.
  - someinv Hb. rewrite <- !app_assoc, map_start_rt by lia.
    rewrite present_none by (unfold dec_map_kid; rewrite int_not_expect by (assumption || lia); reflexivity).
    rewrite present_none by (unfold dec_map_chain; rewrite int_not_expect by (assumption || lia); reflexivity).
    rewrite (present_some _ _ _ _ _ (map_x5t_rt a fp (2 * 1) r Hi eq_refl)).
    reflexivity.
Qed.
Lemma idv_map_rt : forall i b ec r, id_ok i -> enc_id_cred i = Some b -> 0 < ec ->
  dec_idv canon (DS ec (b ++ r)) = Some (IvMap (cmap_of i), DS (ec - 1) r).
Proof.
  intros i b ec r Hi Hb He. unfold dec_idv. rewrite (map_rt i) by assumption.
  assert (X : exists v t, b = enc_head 5 1 ++ t /\ v = 1).
  { destruct i as [k|c|a fp]; cbn [enc_id_cred] in Hb;
      [someinv Hb; eauto | destruct (enc_chainv c); [someinv Hb; eauto|discriminate] | someinv Hb; eauto]. }
  destruct X as (_ & t & -> & _). rewrite <- app_assoc.
  rewrite head_not_int by lia. unfold dec_bstr. rewrite dec_str_head_none by lia. reflexivity.
Qed.
Lemma idv_int_rt : forall v ec r, int32 v -> 0 < ec ->
  dec_idv canon (DS ec (enc_int v ++ r)) = Some (IvInt v, DS (ec - 1) r).
Proof. intros. unfold dec_idv. now rewrite int_rt. Qed.
Lemma idv_bstr_rt : forall b ec r, size_ok b -> 0 < ec ->
  dec_idv canon (DS ec (enc_bstr b ++ r)) = Some (IvBstr b, DS (ec - 1) r).
Proof. intros. unfold dec_idv. rewrite bstr_not_int, bstr_rt by assumption. reflexivity. Qed.

(** *** EAD items: what a decoder makes of written items.  A value token is decoded with the
    pointer into the rest of the message. *)
Definition item_ok (e : ead_item) : Prop :=
  int32 (fst e) /\ match snd e with Some v => size_ok v | None => True end.
(** Token denotes item: same label, and the same value bytes, or no value. *)
Definition denotes (t : token) (e : ead_item) : Prop :=
  tk_label t = fst e /\
  match snd e with
  | Some v => exists p, zs_ptr (tk_val t) = Some p /\ zs_len (tk_val t) = zlen v /\ take (zlen v) p = v
  | None => tk_val t = zstr0
  end.
Lemma ead_item_rt : forall e ec r, item_ok e -> 1 < ec ->
  (snd e = None -> match r with [] => True | h :: _ => h / 32 <> 2 end) ->
  exists t ec', dec_ead_item canon (DS ec (enc_ead_item e ++ r)) = Some (t, DS ec' r) /\
    denotes t e /\ ec - 2 <= ec' < ec.
Proof.
  intros [l [v|]] ec r [Hl Hv] He Hr; cbn [fst snd] in *; unfold enc_ead_item, dec_ead_item; cbn [fst snd].
  - rewrite <- app_assoc, int_rt by (assumption || lia).
    unfold enc_bstr. rewrite <- app_assoc. rewrite str_p_rt by (assumption || lia).
    eexists. eexists. split; [reflexivity|]. split; [|lia]. split; [reflexivity|]. cbn.
    eexists. split; [reflexivity|]. split; [reflexivity|]. now apply take_app_exact.
  - cbn [app]. rewrite app_nil_r. rewrite int_rt by (assumption || lia).
    assert (X : dec_str_p canon 2 zstr0 (DS (ec - 1) r) = (false, zstr0, DS (ec - 1) r)).
    { unfold dec_str_p, next_major. cbn [d_rest]. destruct r as [|h r]; [reflexivity|].
      specialize (Hr eq_refl). replace (h / 32 =? 2) with false by lia. reflexivity. }
    rewrite X. eexists. eexists. split; [reflexivity|]. split; [|lia]. split; reflexivity.
Qed.
End Items.
