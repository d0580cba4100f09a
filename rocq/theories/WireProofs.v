(** The library's decoders accept only well-formed items and return their value. *)
From Verif Require Import Bytes Cbor CborGen Values Rfc Wire Uses Facts CborProofs RfcProofs.

Lemma pair_inj : forall A B (a c : A) (b d : B), (a, b) = (c, d) -> a = c /\ b = d.
Proof. intros. split; congruence. Qed.
Lemma number_unbe : forall b, unbe b = number b.
Proof.
  assert (G : forall b a, fold_left (fun a b => a * 256 + b) b a = a * 256 ^ zlen b + number b).
  { induction b as [|x b IH]; intro a; cbn [fold_left number]; [unfold zlen; cbn; lia|].
    rewrite IH. rewrite zlen_cons, Z.pow_add_r by (pose proof (zlen_nonneg _ b); lia). lia. }
  intro b. unfold unbe. rewrite G. lia.
Qed.
Lemma number_nonneg : forall b, wf_bytes b -> 0 <= number b.
Proof.
  induction b as [|x b IH]; intro W; cbn [number]; [lia|]. inversion W as [|? ? [A _] W']; subst.
  specialize (IH W'). assert (0 <= 256 ^ zlen b) by (apply Z.pow_nonneg; lia). nia.
Qed.
Lemma wf_drop : forall n b, wf_bytes b -> wf_bytes (drop n b).
Proof. intros n b W. unfold drop. apply Forall_forall. intros x H. unfold wf_bytes in W. rewrite Forall_forall in W. apply W. rewrite <- (firstn_skipn (Z.to_nat n) b). apply in_or_app. now right. Qed.
Lemma wf_take : forall n b, wf_bytes b -> wf_bytes (take n b).
Proof. intros n b W. unfold take. apply Forall_forall. intros x H. unfold wf_bytes in W. rewrite Forall_forall in W. apply W. rewrite <- (firstn_skipn (Z.to_nat n) b). apply in_or_app. now left. Qed.

(** [s'] is what is left of [s] after [b]. *)
Definition ate (s s' : dst) (b : bytes) : Prop := d_rest s = b ++ d_rest s'.

Lemma raw_sound : forall maxb s v short s' m, value_extract_raw maxb s = Some (v, short, s') ->
  next_major s = Some m -> wf_bytes (d_rest s) ->
  exists h, ate s s' h /\ is_head m v h /\ 0 <= v /\ wf_bytes (d_rest s').
Proof.
  intros maxb [ec rest] v short s' m H M W. unfold value_extract_raw, next_major in *. cbn [d_ec d_rest] in *.
  destruct (ec <=? 0); [discriminate|]. destruct rest as [|b r]; [discriminate|]. injection M as <-.
  inversion W as [|? ? Wb Wr]; subst.
  assert (B : b = 2 ^ 5 * (b / 32) + b mod 32) by (change (2 ^ 5) with 32; apply Z.div_mod; lia).
  pose proof (Z.mod_pos_bound b 32 ltac:(lia)) as Hm.
  destruct (b mod 32 <? 24) eqn:A.
  - injection H as <- _ <-. exists [b]. split; [reflexivity|]. split; [|split; [lia|exact Wr]].
    exists (b mod 32), []. split; [now f_equal|]. left. repeat split; lia.
  - destruct (27 <? b mod 32) eqn:C; [discriminate|]. destruct (maxb <? _) eqn:D; [discriminate|].
    destruct (zlen r <? _) eqn:F; [discriminate|]. injection H as <- _ <-.
    exists (b :: take (2 ^ (b mod 32 - 24)) r). cbn [d_rest]. split; [unfold ate; cbn [app d_rest]; f_equal; symmetry; apply firstn_skipn|].
    rewrite number_unbe. split; [|split; [apply number_nonneg, wf_take, Wr|now apply wf_drop]].
    exists (b mod 32), (take (2 ^ (b mod 32 - 24)) r). split; [now f_equal|]. right.
    exists (b mod 32 - 24). repeat split; try lia. apply zlen_take. split; [apply Z.pow_nonneg; lia|lia].
Qed.
Lemma value_sound : forall canon maxb s v s' m, value_extract canon maxb s = Some (v, s') ->
  next_major s = Some m -> wf_bytes (d_rest s) ->
  exists h, ate s s' h /\ is_head m v h /\ 0 <= v /\ wf_bytes (d_rest s').
Proof.
  intros canon maxb s v s' m H M W. unfold value_extract in H.
  destruct (value_extract_raw maxb s) as [[[v1 sh] s1]|] eqn:R; [|discriminate].
  destruct (canon && negb sh); [discriminate|]. injection H as -> ->. eapply raw_sound; eassumption.
Qed.
Lemma int_sound : forall canon s v s', dec_int32 canon s = Some (v, s') -> wf_bytes (d_rest s) ->
  exists b, ate s s' b /\ written (Num v) b /\ - 2 ^ 31 <= v < 2 ^ 31 /\ wf_bytes (d_rest s').
Proof.
  intros canon s v s' H W. unfold dec_int32 in H. destruct (next_major s) as [m|] eqn:M; [|discriminate].
  destruct ((m =? 0) || (m =? 1)) eqn:K; [|discriminate].
  destruct (value_extract canon 4 s) as [[u s1]|] eqn:V; [|discriminate].
  destruct (u <? 2 ^ 31) eqn:L; [|discriminate]. apply some_inj, pair_inj in H as [Ev Es]; subst v s'.
  destruct (value_sound _ _ _ _ _ _ V M W) as (h & A & B & C & D).
  exists h. split; [exact A|]. apply Z.ltb_lt in L. split; [|split; [clear - C L; change (2 ^ 31) with 2147483648 in *; destruct (m =? 0); lia|exact D]]. constructor.
  destruct (m =? 0) eqn:Z0.
  - replace (u <? 0) with false by lia. replace m with 0 in B by lia. exact B.
  - replace (-1 - u <? 0) with true by lia. replace (-1 - (-1 - u)) with u by lia. replace m with 1 in B by lia. exact B.
Qed.
Lemma str_p_sound : forall canon maj old s z s', dec_str_p canon maj old s = (true, z, s') ->
  wf_bytes (d_rest s) -> exists h r, zs_ptr z = Some r /\ 0 <= zs_len z <= zlen r /\
  ate s s' (h ++ take (zs_len z) r) /\ is_head maj (zs_len z) h /\ wf_bytes r /\
  r = take (zs_len z) r ++ d_rest s' /\ wf_bytes (d_rest s').
Proof.
  intros canon maj old s z s' H W. unfold dec_str_p in H. destruct (next_major s) as [m|] eqn:M; [|discriminate].
  destruct (m =? maj) eqn:K; [|discriminate]. apply Z.eqb_eq in K. subst m.
  destruct (value_extract_raw 8 s) as [[[v sh] s1]|] eqn:V; [|discriminate].
  destruct (canon && negb sh); [discriminate|]. destruct (zlen (d_rest s1) <? v) eqn:L; [discriminate|].
  injection H as <- <-. destruct (raw_sound _ _ _ _ _ _ V M W) as (h & A & B & C & D).
  exists h, (d_rest s1). cbn [zs_ptr zs_len d_rest]. repeat split; try assumption; try lia.
  - unfold ate in *. cbn [d_rest]. rewrite A, <- app_assoc. f_equal. symmetry. apply firstn_skipn.
  - symmetry. apply firstn_skipn.
  - now apply wf_drop.
Qed.
Lemma str_sound : forall canon maj s x s', dec_str canon maj s = Some (x, s') -> wf_bytes (d_rest s) ->
  exists h, ate s s' (h ++ x) /\ is_head maj (zlen x) h /\ wf_bytes (d_rest s') /\ wf_bytes x.
Proof.
  intros canon maj s x s' H W. unfold dec_str in H.
  destruct (dec_str_p canon maj zstr0 s) as [[ok z] s1] eqn:V. destruct ok; [|discriminate].
  destruct (str_p_sound _ _ _ _ _ _ V W) as (h & r & A & B & C & D & F & G & I).
  destruct z as [v p]. cbn [zs_ptr zs_len] in *. subst p. injection H as <- <-.
  exists h. rewrite zlen_take by lia. repeat split; try assumption. now apply wf_take.
Qed.
Lemma bstr_sound : forall canon s x s', dec_bstr canon s = Some (x, s') -> wf_bytes (d_rest s) ->
  exists b, ate s s' b /\ written (Bstr x) b /\ wf_bytes (d_rest s') /\ wf_bytes x.
Proof. intros. destruct (str_sound _ _ _ _ _ H H0) as (h & A & B & C & D). exists (h ++ x). repeat split; try assumption. now constructor. Qed.
Lemma tstr_sound : forall canon s x s', dec_tstr canon s = Some (x, s') -> wf_bytes (d_rest s) ->
  exists b, ate s s' b /\ written (Tstr x) b /\ wf_bytes (d_rest s') /\ wf_bytes x.
Proof. intros. destruct (str_sound _ _ _ _ _ H H0) as (h & A & B & C & D). exists (h ++ x). repeat split; try assumption. now constructor. Qed.

(** ** Element counts *)
Lemma value_ec : forall canon maxb s v s', value_extract canon maxb s = Some (v, s') -> d_ec s' = d_ec s - 1 /\ 0 < d_ec s.
Proof.
  intros canon maxb [ec rest] v s' H. unfold value_extract, value_extract_raw in H. cbn [d_ec d_rest] in *.
  destruct (ec <=? 0) eqn:A; [discriminate|]. destruct rest as [|b r]; [discriminate|].
  destruct (b mod 32 <? 24).
  - destruct (canon && negb true); [discriminate|]. injection H as _ <-. cbn [d_ec]. lia.
  - destruct (27 <? b mod 32); [discriminate|]. destruct (maxb <? _); [discriminate|]. destruct (zlen r <? _); [discriminate|].
    destruct (canon && _); [discriminate|]. injection H as _ <-. cbn [d_ec]. lia.
Qed.
Lemma int_ec : forall canon s v s', dec_int32 canon s = Some (v, s') -> d_ec s' = d_ec s - 1.
Proof.
  intros canon s v s' H. unfold dec_int32 in H. destruct (next_major s); [|discriminate]. destruct (_ || _); [|discriminate].
  destruct (value_extract canon 4 s) as [[u s1]|] eqn:V; [|discriminate]. destruct (u <? _); [|discriminate]. injection H as _ <-.
  now apply value_ec in V.
Qed.
Lemma raw_ec : forall maxb s v sh s', value_extract_raw maxb s = Some (v, sh, s') -> d_ec s' = d_ec s - 1.
Proof.
  intros maxb s v sh s' H. assert (V : value_extract false maxb s = Some (v, s')) by (unfold value_extract; rewrite H; reflexivity).
  now apply value_ec in V.
Qed.
Lemma str_ec : forall canon maj s v s', dec_str canon maj s = Some (v, s') -> d_ec s' = d_ec s - 1.
Proof.
  intros canon maj s v s' H. unfold dec_str, dec_str_p in H. destruct (next_major s); [|discriminate]. destruct (_ =? _); [|discriminate].
  destruct (value_extract_raw 8 s) as [[[u sh] s1]|] eqn:V; [|discriminate]. destruct (canon && _); [discriminate|].
  destruct (zlen _ <? u); [discriminate|]. injection H as _ <-. cbn [d_ec]. now apply raw_ec in V.
Qed.

(** ** Sequences *)
Lemma seq_snoc : forall l b, written_seq l b -> forall i a, written i a -> written_seq (l ++ [i]) (b ++ a).
Proof.
  fix IH 3. intros l b [|i0 l0 a0 b0 W0 W1] i a Hi; cbn [app].
  - rewrite <- (app_nil_r a). constructor; [exact Hi|constructor].
  - rewrite <- app_assoc. constructor; [exact W0|]. now apply IH.
Qed.
Lemma multi_sound : forall A (f : dst -> option (A * dst)) (to : A -> item),
  (forall s a s', f s = Some (a, s') -> wf_bytes (d_rest s) ->
     exists b, ate s s' b /\ written (to a) b /\ wf_bytes (d_rest s') /\ d_ec s' = d_ec s - 1) ->
  forall n s l s', multi_loop n f s = (l, s') -> wf_bytes (d_rest s) ->
  exists b, ate s s' b /\ written_seq (map to l) b /\ wf_bytes (d_rest s') /\ d_ec s' = d_ec s - zlen l.
Proof.
  intros A f to F. induction n as [|n IH]; intros s l s' H W; cbn [multi_loop] in H.
  - injection H as <- <-. exists []. repeat split; try assumption; [constructor|cbn; lia].
  - destruct (f s) as [[a s1]|] eqn:X.
    + destruct (multi_loop n f s1) as [l1 s2] eqn:L. injection H as <- <-.
      destruct (F _ _ _ X W) as (b & B1 & B2 & B3 & B4). destruct (IH _ _ _ L B3) as (c & C1 & C2 & C3 & C4).
      exists (b ++ c). split; [unfold ate in *; rewrite B1, C1, <- app_assoc; reflexivity|].
      split; [cbn [map]; now constructor|]. split; [exact C3|]. rewrite C4, B4, zlen_cons. lia.
    + injection H as <- <-. exists []. repeat split; try assumption; [constructor|cbn; lia].
Qed.
Lemma list_sound : forall canon s outer s', list_start canon s = Some (outer, s') -> wf_bytes (d_rest s) ->
  exists h, ate s s' h /\ is_head 4 (d_ec s') h /\ outer = d_ec s - 1 /\ wf_bytes (d_rest s').
Proof.
  intros canon s outer s' H W. unfold list_start in H. destruct (next_major s) as [m|] eqn:M; [|discriminate].
  destruct (m =? 4) eqn:K; [|discriminate]. apply Z.eqb_eq in K. subst m.
  destruct (value_extract canon 8 s) as [[n s1]|] eqn:V; [|discriminate]. injection H as <- <-.
  destruct (value_sound _ _ _ _ _ _ V M W) as (h & A & B & C & D). apply value_ec in V.
  exists h. cbn [d_ec d_rest]. repeat split; try assumption; lia.
Qed.
Lemma map_sound : forall canon s outer s', map_start canon s = Some (outer, s') -> wf_bytes (d_rest s) ->
  exists h n, ate s s' h /\ d_ec s' = 2 * n /\ is_head 5 n h /\ outer = d_ec s - 1 /\ wf_bytes (d_rest s').
Proof.
  intros canon s outer s' H W. unfold map_start in H. destruct (next_major s) as [m|] eqn:M; [|discriminate].
  destruct (m =? 5) eqn:K; [|discriminate]. apply Z.eqb_eq in K. subst m.
  destruct (value_extract canon 8 s) as [[n s1]|] eqn:V; [|discriminate]. injection H as <- <-.
  destruct (value_sound _ _ _ _ _ _ V M W) as (h & A & B & C & D). apply value_ec in V.
  exists h, n. cbn [d_ec d_rest]. repeat split; try assumption; lia.
Qed.

(** ** Structures *)
Lemma suites_sound : forall canon s u s', dec_suites canon s = Some (u, s') -> wf_bytes (d_rest s) ->
  exists b, ate s s' b /\ written (match u with SuInt v => Num v | SuList l => Arr (map Num l) end) b /\
  match u with SuInt _ => True | SuList l => 2 <= zlen l <= 3 end /\ wf_bytes (d_rest s').
Proof.
  intros canon s u s' H W. unfold dec_suites, dec_suites_p in H.
  destruct (list_start canon s) as [[outer s1]|] eqn:L.
  - destruct (list_sound _ _ _ _ L W) as (h & A & B & C & D). unfold multi in H.
    destruct (multi_loop 3 (dec_int32 canon) s1) as [l s2] eqn:P.
    destruct (2 <=? length l)%nat eqn:G; [|discriminate]. unfold list_end in H.
    destruct (d_ec s2 =? 0) eqn:Z0; [|discriminate]. injection H as <- <-. cbn [Z.eqb].
    assert (Lq : (length l <= 3)%nat) by (clear -P; revert P; generalize 3%nat, s1; intros k; revert l s2; induction k as [|k IH]; intros l s2 s H; cbn [multi_loop] in H; [injection H as <- <-; cbn; lia|]; destruct (dec_int32 canon s) as [[a s3]|]; [|injection H as <- <-; cbn; lia]; destruct (multi_loop k _ s3) as [l1 s4] eqn:X; injection H as <- <-; apply IH in X; cbn; lia).
    destruct (multi_sound Z (dec_int32 canon) Num) with (n := 3%nat) (s := s1) (l := l) (s' := s2) as (b & B1 & B2 & B3 & B4); try assumption.
    { intros s0 a s0' Hs Ws. destruct (int_sound _ _ _ _ Hs Ws) as (b & X1 & X2 & _ & X3). exists b. repeat split; try assumption. eapply int_ec; eassumption. }
    exists (h ++ b). cbn [d_rest]. split; [unfold ate in *; cbn [d_rest]; rewrite A, B1, <- app_assoc; reflexivity|].
    split; [|split; [unfold zlen; apply Nat.leb_le in G; lia|exact B3]].
    constructor; [|exact B2]. replace (zlen (map Num l)) with (d_ec s1); [exact B|]. rewrite zlen_map. lia.
  - destruct (dec_int32 canon s) as [[v s1]|] eqn:I; [|discriminate]. injection H as <- <-. cbn [Z.eqb].
    destruct (int_sound _ _ _ _ I W) as (b & B1 & B2 & _ & B3). exists b. repeat split; assumption.
Qed.
Lemma cidv_sound : forall canon s c s', dec_cidv canon s = Some (c, s') -> wf_bytes (d_rest s) ->
  exists b, ate s s' b /\ written (match c with CidInt v => Num v | CidBstr x => Bstr x end) b /\
  match c with CidInt v => -24 <= v <= 23 | CidBstr _ => True end /\ wf_bytes (d_rest s').
Proof.
  intros canon s c s' H W. unfold dec_cidv in H. destruct (dec_bstr canon s) as [[x s1]|] eqn:B.
  - injection H as <- <-. destruct (bstr_sound _ _ _ _ B W) as (b & B1 & B2 & B3 & _). exists b. repeat split; assumption.
  - destruct (dec_int32 canon s) as [[v s1]|] eqn:I; [|discriminate]. destruct (_ && _) eqn:R; [|discriminate].
    injection H as <- <-. destruct (int_sound _ _ _ _ I W) as (b & B1 & B2 & _ & B3). exists b. repeat split; try assumption; lia.
Qed.
Lemma expect_sound : forall canon k s s', expect_uint canon k s = Some s' -> wf_bytes (d_rest s) ->
  exists b, ate s s' b /\ written (Num k) b /\ wf_bytes (d_rest s') /\ d_ec s' = d_ec s - 1.
Proof.
  intros canon k s s' H W. unfold expect_uint in H. destruct (next_major s) as [m|] eqn:M; [|discriminate].
  destruct (m =? 0) eqn:K; [|discriminate]. apply Z.eqb_eq in K. subst m.
  destruct (value_extract canon 4 s) as [[v s1]|] eqn:V; [|discriminate]. destruct (v =? k) eqn:L; [|discriminate].
  injection H as <-. apply Z.eqb_eq in L. subst v. destruct (value_sound _ _ _ _ _ _ V M W) as (h & A & B & C & D).
  exists h. repeat split; try assumption; [|now apply value_ec in V]. constructor. replace (k <? 0) with false by lia. exact B.
Qed.

Definition kid_item (k : kidv) : item := match k with KidInt v => Num v | KidBstr b => Bstr b end.
Definition chain_item (c : chainv) : item := match c with ChOne b => Bstr b | ChList l => Arr (map Bstr l) end.
Definition x5t_item (h : algv * bytes) : item :=
  Arr [match fst h with AlgInt v => Num v | AlgTstr b => Tstr b end; Bstr (snd h)].
Definition opt_pair {A} (k : Z) (to : A -> item) (o : option A) : list (item * item) :=
  match o with Some a => [(Num k, to a)] | None => [] end.
Definition cmap_item (m : cmap) : item :=
  Map (opt_pair 4 kid_item (mp_kid m) ++ opt_pair 33 chain_item (mp_chain m) ++ opt_pair 34 x5t_item (mp_x5t m)).

Ltac ate_tac := unfold ate in *; cbn [d_rest] in *;
  repeat match goal with H : d_rest ?s = _ |- context [d_rest ?s] => rewrite H end; rewrite <- ?app_assoc; reflexivity.
Lemma map_kid_sound : forall canon s k s', dec_map_kid canon s = Some (k, s') -> wf_bytes (d_rest s) ->
  exists a b, ate s s' (a ++ b) /\ written (Num 4) a /\ written (kid_item k) b /\ wf_bytes (d_rest s') /\ d_ec s' = d_ec s - 2.
Proof.
  intros canon s k s' H W. unfold dec_map_kid in H. destruct (expect_uint canon 4 s) as [s1|] eqn:X; [|discriminate].
  destruct (expect_sound _ _ _ _ X W) as (a & A1 & A2 & A3 & A4).
  destruct (dec_int32 canon s1) as [[v s2]|] eqn:I.
  - injection H as <- <-. destruct (int_sound _ _ _ _ I A3) as (b & B1 & B2 & _ & B3). apply int_ec in I.
    exists a, b. repeat split; try assumption; try lia. ate_tac.
  - destruct (dec_bstr canon s1) as [[x s2]|] eqn:B; [|discriminate]. injection H as <- <-.
    destruct (bstr_sound _ _ _ _ B A3) as (b & B1 & B2 & B3 & _). apply str_ec in B.
    exists a, b. repeat split; try assumption; try lia. ate_tac.
Qed.
Lemma map_chain_sound : forall canon s k s', dec_map_chain canon s = Some (k, s') -> wf_bytes (d_rest s) ->
  exists a b, ate s s' (a ++ b) /\ written (Num 33) a /\ written (chain_item k) b /\ wf_bytes (d_rest s') /\ d_ec s' = d_ec s - 2.
Proof.
  intros canon s k s' H W. unfold dec_map_chain in H. destruct (expect_uint canon 33 s) as [s1|] eqn:X; [|discriminate].
  destruct (expect_sound _ _ _ _ X W) as (a & A1 & A2 & A3 & A4).
  destruct (dec_bstr canon s1) as [[x s2]|] eqn:B.
  - injection H as <- <-. destruct (bstr_sound _ _ _ _ B A3) as (b & B1 & B2 & B3 & _). apply str_ec in B.
    exists a, b. repeat split; try assumption; try lia. ate_tac.
  - destruct (list_start canon s1) as [[outer s2]|] eqn:L; [|discriminate].
    destruct (list_sound _ _ _ _ L A3) as (h & C1 & C2 & C3 & C4). unfold multi in H.
    destruct (multi_loop 3 (dec_bstr canon) s2) as [l s3] eqn:P.
    destruct (2 <=? length l)%nat eqn:G; [|discriminate]. unfold list_end in H.
    destruct (d_ec s3 =? 0) eqn:Z0; [|discriminate]. injection H as <- <-.
    destruct (multi_sound bytes (dec_bstr canon) Bstr) with (n := 3%nat) (s := s2) (l := l) (s' := s3) as (b & B1 & B2 & B3 & B4); try assumption.
    { intros s0 x s0' Hs Ws. destruct (bstr_sound _ _ _ _ Hs Ws) as (b & X1 & X2 & X3 & _). exists b. repeat split; try assumption. eapply str_ec; eassumption. }
    exists a, (h ++ b). cbn [d_ec]. repeat split; try assumption; try lia; [ate_tac|].
    constructor; [|exact B2]. rewrite zlen_map. replace (zlen l) with (d_ec s2) by lia. exact C2.
Qed.
Lemma written_two : forall x y a b, written x a -> written y b -> written_seq [x; y] (a ++ b).
Proof. intros. constructor; [assumption|]. rewrite <- (app_nil_r b). constructor; [assumption|constructor]. Qed.
Lemma map_x5t_sound : forall canon s k s', dec_map_x5t canon s = Some (k, s') -> wf_bytes (d_rest s) ->
  exists a b, ate s s' (a ++ b) /\ written (Num 34) a /\ written (x5t_item k) b /\ wf_bytes (d_rest s') /\ d_ec s' = d_ec s - 2.
Proof.
  intros canon s k s' H W. unfold dec_map_x5t in H. destruct (expect_uint canon 34 s) as [s1|] eqn:X; [|discriminate].
  destruct (expect_sound _ _ _ _ X W) as (a & A1 & A2 & A3 & A4).
  destruct (list_start canon s1) as [[outer s2]|] eqn:L; [|discriminate].
  destruct (list_sound _ _ _ _ L A3) as (h & C1 & C2 & C3 & C4).
  assert (K : forall al s3, (match dec_int32 canon s2 with
             | Some (v, s3) => Some (AlgInt v, s3)
             | None => match dec_tstr canon s2 with Some (b, s3) => Some (AlgTstr b, s3) | None => None end
             end) = Some (al, s3) ->
    exists b, ate s2 s3 b /\ written (match al with AlgInt v => Num v | AlgTstr b => Tstr b end) b /\
      wf_bytes (d_rest s3) /\ d_ec s3 = d_ec s2 - 1).
  { intros al s3 Hal. destruct (dec_int32 canon s2) as [[v s4]|] eqn:I.
    - injection Hal as <- <-. destruct (int_sound _ _ _ _ I C4) as (b & B1 & B2 & _ & B3). apply int_ec in I. exists b. repeat split; assumption.
    - destruct (dec_tstr canon s2) as [[x s4]|] eqn:T; [|discriminate]. injection Hal as <- <-.
      destruct (tstr_sound _ _ _ _ T C4) as (b & B1 & B2 & B3 & _). apply str_ec in T. exists b. repeat split; assumption. }
  destruct (match dec_int32 canon s2 with Some (v, s3) => Some (AlgInt v, s3) | None => _ end) as [[al s3]|] eqn:Q; [|discriminate].
  destruct (K _ _ eq_refl) as (b1 & D1 & D2 & D3 & D4).
  destruct (dec_bstr canon s3) as [[x s4]|] eqn:B; [|discriminate]. unfold list_end in H.
  destruct (d_ec s4 =? 0) eqn:Z0; [|discriminate]. injection H as <- <-.
  destruct (bstr_sound _ _ _ _ B D3) as (b2 & B1 & B2 & B3 & _). apply str_ec in B.
  exists a, (h ++ b1 ++ b2). cbn [d_ec]. repeat split; try assumption; try lia; [ate_tac|].
  constructor; [|now apply written_two]. unfold zlen; cbn [length]. replace (Z.of_nat 2) with (d_ec s2) by lia. exact C2.
Qed.
Lemma present_sound : forall A (f : dst -> option (A * dst)) k (to : A -> item),
  (forall s a s', f s = Some (a, s') -> wf_bytes (d_rest s) ->
    exists x b, ate s s' (x ++ b) /\ written (Num k) x /\ written (to a) b /\ wf_bytes (d_rest s') /\ d_ec s' = d_ec s - 2) ->
  forall s o s', present f s = (o, s') -> wf_bytes (d_rest s) ->
  exists b, ate s s' b /\ written_pairs (opt_pair k to o) b /\ wf_bytes (d_rest s') /\
    d_ec s' = d_ec s - 2 * zlen (opt_pair k to o).
Proof.
  intros A f k to F s o s' H W. unfold present in H. destruct (f s) as [[a s1]|] eqn:X; injection H as <- <-.
  - destruct (F _ _ _ X W) as (x & b & A1 & A2 & A3 & A4 & A5). exists (x ++ b). repeat split; try assumption.
    cbn [opt_pair]. rewrite <- (app_nil_r b), app_assoc, <- app_assoc. constructor; [assumption|assumption|constructor].
  - exists []. repeat split; try assumption; [constructor|cbn; lia].
Qed.
Lemma pairs_app : forall l b, written_pairs l b -> forall m c, written_pairs m c -> written_pairs (l ++ m) (b ++ c).
Proof.
  fix IH 3. intros l b [|k v l0 a0 b0 c0 W0 W1 W2] m c Hm; cbn [app]; [exact Hm|].
  rewrite <- !app_assoc. constructor; [exact W0|exact W1|]. now apply IH.
Qed.
Lemma cmap_sound : forall canon s m s', dec_map canon s = Some (m, s') -> wf_bytes (d_rest s) ->
  exists b, ate s s' b /\ written (cmap_item m) b /\ wf_bytes (d_rest s') /\ d_ec s' = d_ec s - 1.
Proof.
  intros canon s m s' H W. unfold dec_map in H. destruct (map_start canon s) as [[outer s1]|] eqn:M; [|discriminate].
  destruct (map_sound _ _ _ _ M W) as (h & n & C1 & C2 & C3 & C4 & C5).
  destruct (present (dec_map_kid canon) s1) as [k s2] eqn:P1.
  destruct (present_sound _ _ 4 kid_item (map_kid_sound canon) _ _ _ P1 C5) as (b1 & D1 & D2 & D3 & D4).
  destruct (present (dec_map_chain canon) s2) as [c s3] eqn:P2.
  destruct (present_sound _ _ 33 chain_item (map_chain_sound canon) _ _ _ P2 D3) as (b2 & E1 & E2 & E3 & E4).
  destruct (present (dec_map_x5t canon) s3) as [x s4] eqn:P3.
  destruct (present_sound _ _ 34 x5t_item (map_x5t_sound canon) _ _ _ P3 E3) as (b3 & F1 & F2 & F3 & F4).
  unfold list_end in H. destruct (d_ec s4 =? 0) eqn:Z0; [|discriminate]. injection H as <- <-.
  exists (h ++ b1 ++ b2 ++ b3). cbn [d_ec]. repeat split; try assumption; [ate_tac|]. unfold cmap_item. cbn [mp_kid mp_chain mp_x5t].
  constructor; [|apply pairs_app; [assumption|now apply pairs_app]].
  rewrite !zlen_app. replace (_ + _) with n by lia. exact C3.
Qed.
Definition idv_item (i : idv) : item :=
  match i with IvInt v => Num v | IvBstr b => Bstr b | IvMap m => cmap_item m end.
Lemma idv_sound : forall canon s i s', dec_idv canon s = Some (i, s') -> wf_bytes (d_rest s) ->
  exists b, ate s s' b /\ written (idv_item i) b /\ wf_bytes (d_rest s').
Proof.
  intros canon s i s' H W. unfold dec_idv in H. destruct (dec_int32 canon s) as [[v s1]|] eqn:I.
  - injection H as <- <-. destruct (int_sound _ _ _ _ I W) as (b & B1 & B2 & _ & B3). exists b. repeat split; assumption.
  - destruct (dec_bstr canon s) as [[x s1]|] eqn:B.
    + injection H as <- <-. destruct (bstr_sound _ _ _ _ B W) as (b & B1 & B2 & B3 & _). exists b. repeat split; assumption.
    + destruct (dec_map canon s) as [[m s1]|] eqn:M; [|discriminate]. injection H as <- <-.
      destruct (cmap_sound _ _ _ _ M W) as (b & B1 & B2 & B3 & _). exists b. repeat split; assumption.
Qed.

(** An EAD item whose value lies inside the message. *)
Definition token_items (t : token) : list item :=
  ead_items (tk_label t, match zs_ptr (tk_val t) with
                         | None => None | Some b => Some (take (zs_len (tk_val t)) b) end).
Lemma seq_app : forall l b, written_seq l b -> forall m c, written_seq m c -> written_seq (l ++ m) (b ++ c).
Proof.
  fix IH 3. intros l b [|i0 l0 a0 b0 W0 W1] m c Hm; cbn [app]; [exact Hm|].
  rewrite <- app_assoc. constructor; [exact W0|]. now apply IH.
Qed.
Lemma ead_item_sound : forall canon s k s', dec_ead_item canon s = Some (k, s') -> wf_bytes (d_rest s) -> token_in k ->
  exists b, ate s s' b /\ written_seq (token_items k) b /\ wf_bytes (d_rest s').
Proof.
  intros canon s k s' H W T. unfold dec_ead_item in H. destruct (dec_int32 canon s) as [[l s1]|] eqn:I; [|discriminate].
  destruct (int_sound _ _ _ _ I W) as (a & A1 & A2 & _ & A3).
  destruct (dec_str_p canon 2 zstr0 s1) as [[ok z] s2] eqn:D. injection H as <- <-. unfold token_items, token_in in *. cbn [tk_label tk_val] in *.
  destruct ok.
  - destruct (str_p_sound _ _ _ _ _ _ D A3) as (h & r & B1 & B2 & B3 & B4 & B5 & B6 & B7). rewrite B1.
    exists (a ++ (h ++ take (zs_len z) r)). repeat split; [ate_tac| |assumption].
    apply written_two; [assumption|]. constructor. rewrite zlen_take by lia. exact B4.
  - assert (K : s2 = s1 /\ (zs_ptr z = None \/ exists r, zs_ptr z = Some r /\ zlen r < zs_len z)).
    { unfold dec_str_p in D. destruct (next_major s1); [|injection D as <- <-; split; [reflexivity|now left]].
      destruct (z0 =? 2); [|injection D as <- <-; split; [reflexivity|now left]].
      destruct (value_extract_raw 8 s1) as [[[v sh] s3]|]; [|injection D as <- <-; split; [reflexivity|now left]].
      destruct (canon && negb sh); [injection D as <- <-; split; [reflexivity|now left]|].
      destruct (zlen (d_rest s3) <? v) eqn:Q; [|discriminate]. injection D as <- <-. split; [reflexivity|]. right.
      exists (d_rest s3). cbn [zs_ptr zs_len]. split; [reflexivity|lia]. }
    destruct K as [-> [K|(r & K & L)]]; rewrite K in T |- *; [|lia].
    exists (a ++ []). repeat split; [ate_tac| |assumption]. constructor; [assumption|constructor].
Qed.
Lemma ead_sound : forall canon n s l s', multi_loop n (dec_ead_item canon) s = (l, s') -> wf_bytes (d_rest s) -> Forall token_in l ->
  exists b, ate s s' b /\ written_seq (flat_map token_items l) b /\ wf_bytes (d_rest s').
Proof.
  induction n as [|n IH]; intros s l s' H W T; cbn [multi_loop] in H.
  - injection H as <- <-. exists []. repeat split; try assumption. constructor.
  - destruct (dec_ead_item canon s) as [[a s1]|] eqn:X.
    + destruct (multi_loop n (dec_ead_item canon) s1) as [l1 s2] eqn:L. injection H as <- <-. inversion T as [|? ? Ta Tl]; subst.
      destruct (ead_item_sound _ _ _ _ X W Ta) as (b & B1 & B2 & B3). destruct (IH _ _ _ L B3 Tl) as (c & C1 & C2 & C3).
      exists (b ++ c). repeat split; [ate_tac| |assumption]. cbn [flat_map]. now apply seq_app.
    + injection H as <- <-. exists []. repeat split; try assumption. constructor.
Qed.
(** What a successful decoder of PLAINTEXT_2 and PLAINTEXT_3 read. *)
Lemma tail_sound : forall canon s sg s1 ok l s2, dec_bstr canon s = Some (sg, s1) -> dec_ead canon s1 = (ok, l, s2) ->
  wf_bytes (d_rest s) -> Forall token_in (if ok then l else []) ->
  exists b3 b4 rest, d_rest s = b3 ++ b4 ++ rest /\ written (Bstr sg) b3 /\
    written_seq (flat_map token_items (if ok then l else [])) b4.
Proof.
  intros canon s sg s1 ok l s2 B D W T. destruct (bstr_sound _ _ _ _ B W) as (b3 & B1 & B2 & B3 & _).
  unfold dec_ead, multi in D. destruct (multi_loop 3 (dec_ead_item canon) s1) as [l0 s0] eqn:M. injection D as <- <- <-.
  destruct (length l0) as [|k].
  - exists b3, [], (d_rest s1). split; [exact B1|]. split; [assumption|constructor].
  - destruct (ead_sound _ _ _ _ _ M B3 T) as (b4 & C1 & C2 & _). exists b3, b4, (d_rest s0).
    split; [ate_tac|]. split; assumption.
Qed.
Lemma plaintext_2_sound : forall canon p d, dec_plaintext_2 canon p = Some d -> wf_bytes p -> Forall token_in (pt_ead d) ->
  exists b1 b2 b3 b4 rest, p = b1 ++ b2 ++ b3 ++ b4 ++ rest /\
    written (match pt_cid d with CidInt v => Num v | CidBstr x => Bstr x end) b1 /\
    match pt_cid d with CidInt v => -24 <= v <= 23 | CidBstr _ => True end /\
    written (idv_item (pt_id d)) b2 /\ written (Bstr (pt_sig d)) b3 /\ written_seq (flat_map token_items (pt_ead d)) b4.
Proof.
  intros canon p d H W T. unfold dec_plaintext_2 in H. destruct (dec_cidv canon (DS 9 p)) as [[c s1]|] eqn:C; [|discriminate].
  destruct (cidv_sound _ _ _ _ C W) as (b1 & A1 & A2 & A3 & A4).
  destruct (dec_idv canon s1) as [[i s2]|] eqn:I; [|discriminate].
  destruct (idv_sound _ _ _ _ I A4) as (b2 & B1 & B2 & B3).
  destruct (dec_bstr canon s2) as [[sg s3]|] eqn:S; [|discriminate].
  destruct (dec_ead canon s3) as [[ok l] s4] eqn:D. injection H as <-. cbn [pt_cid pt_id pt_sig pt_ead] in *.
  destruct (tail_sound _ _ _ _ _ _ _ S D B3 T) as (b3 & b4 & rest & C1 & C2 & C3).
  exists b1, b2, b3, b4, rest. repeat split; try assumption. unfold ate in *. cbn [d_rest] in *. rewrite A1, B1, C1. reflexivity.
Qed.
Lemma plaintext_3_sound : forall canon p d, dec_plaintext_3 canon p = Some d -> wf_bytes p -> Forall token_in (pt_ead d) ->
  exists b2 b3 b4 rest, p = b2 ++ b3 ++ b4 ++ rest /\
    written (idv_item (pt_id d)) b2 /\ written (Bstr (pt_sig d)) b3 /\ written_seq (flat_map token_items (pt_ead d)) b4.
Proof.
  intros canon p d H W T. unfold dec_plaintext_3 in H.
  destruct (dec_idv canon (DS 8 p)) as [[i s2]|] eqn:I; [|discriminate].
  destruct (idv_sound _ _ _ _ I W) as (b2 & B1 & B2 & B3).
  destruct (dec_bstr canon s2) as [[sg s3]|] eqn:S; [|discriminate].
  destruct (dec_ead canon s3) as [[ok l] s4] eqn:D. injection H as <-. cbn [pt_cid pt_id pt_sig pt_ead] in *.
  destruct (tail_sound _ _ _ _ _ _ _ S D B3 T) as (b3 & b4 & rest & C1 & C2 & C3).
  exists b2, b3, b4, rest. repeat split; try assumption. unfold ate in *. cbn [d_rest] in *. rewrite B1, C1. reflexivity.
Qed.
