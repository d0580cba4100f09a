(** Requests after the handshake, between willing parties. *)
From Verif Require Import Monad Api Common Msg1 Msg2 Msg3 Msg4 Exporter History Spec Rfc Uses Conform Policy Received Sessions Safety
  Facts Logic Sym CborProofs RfcProofs CodecProofs RoundTrip Steps Steps2 Steps3 Calls HistoryProofs SessionProofs Claims3 Agree Fresh SafeHistory MemProofs Pres
  Ready ReadyStep ReadyLib ReadyMac ReadyWire ReadyMsg ReadyRead Ready1 Ready2 Ready3 Ready4 ReadyProofs Serve.

Section One.
Context {E : env}.
Hypothesis HL : limits.
Hypothesis HA : abides.
Definition flag (b : bool) (c : ctx) : Prop := c_oscore_ok c = b.
Ltac bd := unfold bound, flag in *; cs; assumption.
Lemma export_bound : forall nn l n, pr bound (export_prk_exporter nn l n). Proof. intros. pr_all bd. Qed.
Lemma export_flag : forall b nn l n, pr (flag b) (export_prk_exporter nn l n). Proof. intros. pr_all bd. Qed.
Lemma update_bound : forall nn e, pr bound (export_key_update nn e). Proof. intros. pr_all bd. Qed.
Lemma oscore_bound : forall nn a b d e, pr bound (export_oscore_session nn a b d e). Proof. intros. pr_all bd. Qed.
Lemma ask_call : forall A (m : M A) a (g : A -> M (Z * out)) o w P R (F : ctx -> Prop),
  do_api a = bind m g -> kind a = None -> cf_stack = None -> well w -> fit_call a (w_ctx w) ->
  openable a (w_ctx w) -> pr bound m -> pr F m -> F (w_ctx w) -> 
  sat HU m w (fun y w' => y = R /\ P w') -> g R = ret o ->
  exists w', do_api a w = Ret o w' /\ P w' /\ well w' /\ F (w_ctx w').
Proof.
  intros A m a g o w P R F D K S [C B] FC O PB PF HF H GO.
  assert (forall u, m w = Ub u -> ~ HU u) as NU.
  { intros u U. apply (may_hu a (w_ctx w)); [exact S|exact O|]. apply (careful_call HL HA); [exact C|exact FC|]. rewrite D. unfold bind. now rewrite U. }
  pose proof (PB w B) as PB'. pose proof (PF w HF) as PF'. unfold sat in H, PB', PF'. destruct (m w) as [x w'|u] eqn:X; [|now elim (NU u eq_refl)].
  destruct H as [-> H]. exists w'. assert (do_api a w = Ret o w') as DA by (rewrite D; unfold bind; rewrite X, GO; reflexivity).
  split; [exact DA|]. split; [exact H|]. split; [split; [|exact PB']|exact PF'].
  exact (careful_step w a o w' C FC DA).
Qed.
End One.
Lemma num_size : forall n, 65535 < n -> 3 < zlen (cbor (Num n)).
Proof.
  intros n H. cbn [cbor]. replace (n <? 0) with false by lia. rewrite zlen_head, arg_width_cases.
  repeat match goal with |- context [if ?b then _ else _] => destruct b eqn:?; try lia end.
Qed.
Lemma length_fits : forall s n, modest s -> length_ok s n -> 0 < n <= 65535 /\ n <= 255 * cs_hash s /\ int_mem_req n <= int_mem_req (cs_hash s).
Proof.
  intros s n M [[L1 L2] L3]. destruct M as ((M1 & M2) & _). rewrite <- (int_size_exact (cs_hash s)) in L3 by lia.
  destruct (Z.le_gt_cases n 65535) as [G|G].
  - rewrite <- int_size_exact in L3 by lia. lia.
  - pose proof (num_size n G). assert (int_mem_req (cs_hash s) <= 3) by (apply imr3; lia). lia.
Qed.
Lemma label_fits : forall l, label_ok l -> label_allowed l = true.
Proof. intros l H. unfold label_ok, label_allowed in *. lia. Qed.
Section Run.
Context {E : env}.
Hypothesis HL : limits.
Hypothesis HA : abides.
Variables (p : primitives) (valid : bytes -> bytes -> bytes -> Prop) (s : csuite) (me : creds)
  (sk pk : bytes) (peer : creds) (pkp : bytes) (room : Z).
Hypothesis HW : willing p valid s me sk pk peer pkp room.
Hypothesis SZ : sized p s.
Hypothesis MD : modest s.
Definition key_at (po : bytes) (past : list bytes) : Z -> Z -> bytes := key_of_po p s (fold_left (next_po p s) past po).
Definition open_at (st : Z) (ci pci : conn_id) (po : bytes) (w : world) : Prop :=
  well w /\ exists m r meth ea ts tl th ps prk priv publ pub pee sec tok,
    view (w_ctx w) = VW s st m r meth ci ea ts tl th ps (cs_hash s) prk priv publ pub pee sec pci tok /\
    has_po p s ts tl th ps (cs_hash s) prk po.
Ltac open H := destruct H as (?m & ?r & ?meth & ?ea & ?ts & ?tl & ?th & ?ps & ?prk & ?priv & ?publ & ?pub & ?pee & ?sec & ?tok & HV & HP).
Lemma again : forall st ci pci po w, well w ->
  (exists m r meth ea ts tl th priv publ pub pee sec tok, view (w_ctx w) = VW s st m r meth ci ea ts tl th PRK_OUT (cs_hash s) po priv publ pub pee sec pci tok) ->
  open_at st ci pci po w.
Proof.
  intros st ci pci po w W (m & r & meth & ea & ts & tl & th & priv & publ & pub & pee & sec & tok & HV). split; [exact W|].
  exists m, r, meth, ea, ts, tl, th, PRK_OUT, po, priv, publ, pub, pee, sec, tok. split; [exact HV|]. split; [reflexivity|]. right. now split.
Qed.
Lemma ask_key : forall st ci pci po label n b w, open_at st ci pci po w -> st <= SM_PERSISTED -> label_ok label -> length_ok s n -> c_oscore_ok (w_ctx w) = b ->
  exists w', do_api (AExport true label n) w = Ret (OK, OBytes (key_of_po p s po label n)) w' /\ open_at st ci pci po w' /\ c_oscore_ok (w_ctx w') = b.
Proof.
  intros st ci pci po label n b w [W H] ST LA LN OB. open H. destruct (length_fits s n MD LN) as (N1 & N2 & N3).
  edestruct (ask_call HL HA _ (export_prk_exporter true label n) (AExport true label n)) with (w := w) (F := flag b) as (w' & D & P & W' & F');
    [reflexivity|reflexivity|apply (wl_heap _ _ _ _ _ _ _ _ _ HW)|exact W|split; [apply W|lia]|exact I|apply export_bound|apply export_flag|exact OB|eapply hv_export with (po := po); first [exact HW|exact SZ|exact MD|exact HV|exact HP|exact ST|now apply label_fits|assumption]|reflexivity|].
  exists w'. split; [exact D|]. split; [|exact F']. cbv beta in P. apply again; [exact W'|]. do 13 eexists. exact P.
Qed.
Lemma ask_update : forall st ci pci po e w, open_at st ci pci po w -> SM_COMPLETED <= st -> 0 < zlen e <= 65535 ->
  exists w', do_api (AKeyUpdate true e) w = Ret (OK, ONone) w' /\ open_at st ci pci (next_po p s po e) w' /\ c_oscore_ok (w_ctx w') = true.
Proof.
  intros st ci pci po e w [W H] ST LN. open H.
  edestruct (ask_call HL HA _ (export_key_update true e) (AKeyUpdate true e)) with (w := w) (F := bound) as (w' & D & P & W' & _);
    [reflexivity|reflexivity|apply (wl_heap _ _ _ _ _ _ _ _ _ HW)|exact W|apply W|exact I|apply update_bound|apply update_bound|apply W|eapply hv_update with (po := po); first [exact HW|exact SZ|exact MD|exact HV|exact HP|exact ST|assumption]|reflexivity|].
  exists w'. split; [exact D|]. cbv beta in P. destruct P as [P1 P2]. split; [|exact P2]. apply again; [exact W'|]. do 13 eexists. exact P1.
Qed.
Lemma ask_oscore : forall st ci pci po a b d e w, open_at st ci pci po w -> SM_COMPLETED <= st <= SM_PERSISTED -> c_oscore_ok (w_ctx w) = true ->
  goodcid ci -> goodcid pci -> length_ok s a -> length_ok s b -> 0 < d -> zlen (oscore_bytes (cid_rfc pci)) <= d -> 0 < e -> zlen (oscore_bytes (cid_rfc ci)) <= e ->
  exists w', do_api (AOscore true a b d e) w = Ret (OK, OOscore (OSC (key_of_po p s po 0 a) (key_of_po p s po 1 b) (oscore_bytes (cid_rfc pci)) (oscore_bytes (cid_rfc ci)))) w' /\
    open_at st ci pci po w'.
Proof.
  intros st ci pci po a b d e w [W H] ST OB G1 G2 LA LB D1 D2 E1 E2. open H. destruct (length_fits s a MD LA) as (A1 & A2 & A3). destruct (length_fits s b MD LB) as (B1 & B2 & B3).
  edestruct (ask_call HL HA _ (export_oscore_session true a b d e) (AOscore true a b d e)) with (w := w) (F := bound) as (w' & D & P & W' & _);
    [reflexivity|reflexivity|apply (wl_heap _ _ _ _ _ _ _ _ _ HW)|exact W|split; [apply W|lia]|exact I|apply oscore_bound|apply oscore_bound|apply W|eapply hv_oscore with (po := po); first [exact HW|exact SZ|exact MD|exact HV|exact HP|exact ST|assumption]|reflexivity|].
  exists w'. split; [exact D|]. cbv beta in P. apply again; [exact W'|]. do 13 eexists. exact P.
Qed.
Lemma serve_all : forall l st ci pci po past b w, open_at st ci pci (fold_left (next_po p s) past po) w -> SM_COMPLETED <= st <= SM_PERSISTED ->
  goodcid ci -> goodcid pci -> (b = true -> c_oscore_ok (w_ctx w) = true) -> fair s (cid_rfc ci) (cid_rfc pci) b l ->
  serves (key_at po) (cid_rfc ci) (cid_rfc pci) past w l.
Proof.
  induction l as [|[label n|e|a b1 d e] l IH]; intros st ci pci po past b w O ST G1 G2 B F; cbn [serves fair] in *; [exact I| | |].
  - destruct F as (F1 & F2 & F3). edestruct ask_key as (w' & D & O' & B'); [exact O|apply ST|exact F1|exact F2|reflexivity|].
    exists w'. split; [exact D|]. eapply IH; try eassumption. intro X. rewrite B'. now apply B.
  - destruct F as (F1 & F2). edestruct ask_update as (w' & D & O' & B'); [exact O|apply ST|exact F1|].
    exists w'. split; [exact D|]. eapply IH; try eassumption; [|intros _; exact B']. rewrite fold_left_app. exact O'.
  - destruct F as (F0 & F1 & F2 & F3 & F4 & F5 & F6 & F7). edestruct ask_oscore as (w' & D & O'); [exact O|exact ST|now apply B|exact G1|exact G2|exact F1|exact F2|exact F3|exact F4|exact F5|exact F6|].
    exists w'. split; [exact D|]. eapply IH; try eassumption. discriminate.
Qed.
Lemma key_len : forall po past label n, 0 < n -> zlen (key_at po past label n) = n.
Proof. intros. unfold key_at, key_of_po. now apply SZ. Qed.
End Run.
Section Two.
Context (EI ER : env).
Variables (p : primitives) (valid : bytes -> bytes -> bytes -> Prop) (s : csuite) (me_i : creds)
  (sk_i pk_i : bytes) (me_r : creds) (sk_r pk_r : bytes) (room_i room_r : Z).
Hypothesis CO : correct p.
Hypothesis SZ : sized p s.
Hypothesis MD : modest s.
Hypothesis WI : @willing EI p valid s me_i sk_i pk_i me_r pk_r room_i.
Hypothesis WR : @willing ER p valid s me_r sk_r pk_r me_i pk_i room_r.
Hypothesis LI : @limits EI.
Hypothesis LR : @limits ER.
Hypothesis AI : @abides EI.
Hypothesis AR : @abides ER.
Lemma sealed_open : forall (E : env) st ci pci th prk w, @sealed s E st ci pci th prk w -> @open_at E p s st ci pci (po_of p s prk th) w.
Proof.
  intros E st ci pci th prk w (W & _ & _ & _ & Z & m & r & meth & ea & priv & publ & pub & pee & sec & HV). split; [exact W|].
  do 15 eexists. split; [exact HV|]. split; [reflexivity|]. left. do 3 (split; [reflexivity|]). split; [exact Z|reflexivity].
Qed.
Lemma service : forall st ci cr ji jr th prk wi wr, SM_COMPLETED <= st <= SM_PERSISTED -> @sealed s EI st ci jr th prk wi -> @sealed s ER st cr ji th prk wr ->
  cid_rfc ji = cid_rfc ci -> cid_rfc jr = cid_rfc cr ->
  in_service EI ER s (key_at p s (po_of p s prk th)) (cid_rfc ci) (cid_rfc cr) wi wr.
Proof.
  intros st ci cr ji jr th prk wi wr ST S1 S2 J1 J2. pose proof (sealed_open _ _ _ _ _ _ _ S1) as O1. pose proof (sealed_open _ _ _ _ _ _ _ S2) as O2.
  destruct S1 as (_ & X1 & G1 & G2 & _). destruct S2 as (_ & X2 & G3 & G4 & _). split; intros l F.
  - rewrite <- J2 in *. eapply (serve_all LI AI p valid s me_i sk_i pk_i me_r pk_r room_i WI SZ MD) with (past := []); [exact O1|exact ST|exact G1|exact G2|intros _; exact X1|exact F].
  - rewrite <- J1 in *. eapply (serve_all LR AR p valid s me_r sk_r pk_r me_i pk_i room_r WR SZ MD) with (past := []); [exact O2|exact ST|exact G3|exact G4|intros _; exact X2|exact F].
Qed.
Lemma fourth : forall ci cr ji jr th prk wi wr n4, @sealed s EI SM_COMPLETED ci jr th prk wi -> @sealed s ER SM_COMPLETED cr ji th prk wr -> 0 < cs_tag s -> 65536 <= n4 -> room_r <= 2 ^ 15 ->
  exists wi' wr', message_4 EI ER wi wr n4 wi' wr' /\ @sealed s EI SM_PERSISTED ci jr th prk wi' /\ @sealed s ER SM_PERSISTED cr ji th prk wr'.
Proof.
  intros ci cr ji jr th prk wi wr n4 (W1 & X1 & G1 & G2 & Z1 & S1) (W2 & X2 & G3 & G4 & Z2 & S2) TG N RR.
  destruct S1 as (? & ? & ? & ? & ? & ? & ? & ? & ? & V1). destruct S2 as (? & ? & ? & ? & ? & ? & ? & ? & ? & V2).
  pose proof (view_fin _ _ _ _ _ _ _ _ _ _ _ _ _ _ _ _ _ _ _ _ _ V1) as (P1 & P2 & _ & P3 & _).
  pose proof (view_fin _ _ _ _ _ _ _ _ _ _ _ _ _ _ _ _ _ _ _ _ _ V2) as (Q1 & Q2 & _ & Q3 & _).
  pose proof (room_pos p valid s _ _ _ _ _ _ _ WR) as RP.
  destruct (wl_heap _ _ _ _ _ _ _ _ _ WI) as [SI _]. destruct (wl_heap _ _ _ _ _ _ _ _ _ WR) as [SR _].
  assert (0 <= @cf_max_ead ER <= 3) as XR by (destruct LR; lia).
  edestruct (@api_4c ER LR AR n4 wr) as (m4 & wr' & D4 & P4 & W4 & O4); [exact SR|exact W2|exact X2|lia|apply in_st; assumption| |].
  { eapply sat_conseq; [eapply (@hv_m4_compose ER p valid s me_r sk_r pk_r me_i pk_i room_r WR SZ MD); first [exact V2|reflexivity|assumption|lia|split; assumption]|].
    intros y w' H. split; [destruct H as (? & -> & _); reflexivity|exact H]. }
  cbv beta in P4. destruct P4 as (l & EQ & GL & _ & V4). injection EQ as ->.
  edestruct (@api_4p EI LI AI (m4_of p s prk th (eads l)) wi) as (wi' & D5 & P5 & W5 & O5); [exact SI|exact W1|exact X1|apply cbor_pos|apply in_st; assumption|exact I| |].
  { eapply sat_conseq; [eapply (@hv_m4_process EI p valid s me_i sk_i pk_i me_r pk_r room_i WI SZ MD); first [exact V1|exact CO|reflexivity|assumption]|].
    intros y w' [H1 H2]. split; [exact H1|exact H2]. }
  exists wi', wr'. split; [eexists; split; [exact D4|exact D5]|]. split.
  - do 5 (split; [assumption|]). do 9 eexists. exact P5.
  - do 5 (split; [assumption|]). do 9 eexists. exact V4.
Qed.
End Two.
Theorem cooperative_serves : forall EI ER wi wr s me_i me_r n1 n2 n3, cooperative EI ER wi wr s me_i me_r ->
  65536 <= n1 -> 65536 <= n2 -> 65536 <= n3 ->
  let ci := cid_rfc (c_cid (w_ctx wi)) in let cr := cid_rfc (c_cid (w_ctx wr)) in
  exists wi' wr' key, handshake EI ER wi wr n1 n2 n3 wi' wr' /\ (forall past label n, 0 < n -> zlen (key past label n) = n) /\
    in_service EI ER s key ci cr wi' wr' /\
    (0 < cs_tag s -> forall n4, 65536 <= n4 -> exists wi4 wr4, message_4 EI ER wi' wr' n4 wi4 wr4 /\ in_service EI ER s key ci cr wi4 wr4).
Proof.
  intros EI ER wi wr s me_i me_r n1 n2 n3 (p & valid & ski & pki & skr & pkr & ri & rr & C & Z & WI & WR & KI & KR & CP) N1 N2 N3. cbv zeta.
  assert (modest s) as MD by apply CP.
  destruct (complete EI ER p valid s me_i ski pki me_r skr pkr ri rr C Z MD WI WR wi wr n1 n2 n3 CP KI KR N1 N2 N3)
    as (wi' & wr' & th & prk & ji & jr & H & SI & SR & J1 & J2).
  assert (rr <= 2 ^ 15) as RR by (destruct CP as (_ & _ & _ & _ & _ & _ & _ & _ & _ & _ & _ & _ & _ & _ & _ & B & _); unfold burden in B; pose proof (zlen_nonneg _ (id_bytes me_r)); pose proof (zlen_nonneg _ (cred_bytes_of me_r)); lia).
  destruct CP as ((_ & _ & _ & LI & AI & _) & (_ & _ & _ & LR & AR & _) & _).
  exists wi', wr', (key_at p s (po_of p s prk th)). split; [exact H|]. split; [intros; now apply key_len|]. split.
  - eapply service with (st := SM_COMPLETED); try eassumption. vm_compute; split; discriminate.
  - intros TG n4 N4. destruct (fourth EI ER p valid s me_i ski pki me_r skr pkr ri rr C Z MD WI WR LI LR AI AR _ _ _ _ _ _ _ _ n4 SI SR TG N4 RR) as (wi4 & wr4 & M & S1 & S2). exists wi4, wr4. split; [exact M|].
    eapply service with (st := SM_PERSISTED); try eassumption. vm_compute; split; discriminate.
Qed.
