(** Theorems about kept matrix expressions and matrix assignments that read their target. *)
From Verif Require Import Base.Outcome Base.ZList Model.Index Model.Slice Model.Array1D Model.Array2D Model.Expr Model.Store1D Model.Store2D Model.Lazy2.
From Verif Require Import Spec.ArraySpec Spec.SliceSpec Spec.MatrixSpec Spec.Matrix2Spec Spec.Store1DSpec Spec.Store2DSpec Spec.ExprSpec Spec.Shape2Spec Spec.Lazy2Spec.
From Verif Require Proofs.HeapProofs Spec.EigenSpec Proofs.EigenProofs Proofs.Array2DThms.
From Verif Require Import Proofs.MatrixProofs Proofs.Array2DProofs Proofs.Array2DSim Proofs.Array2DSim3 Proofs.ExprProofs Proofs.Lazy2Proofs.

Section T.
Context {V : Type} (zero : V) (c : cfg) (Hc : cfg_ok c).
Notation world := (list (list (list V))).
Notation store := (list (arr2 V)).
Implicit Types (st : store) (w : world) (M R : list (list V)) (x : mxt V) (a : arr2 V) (hs : list (gex V)).
Notation entry := Lazy2Spec.entry.
Notation gstep := (gstep zero c).

(** ** The sweep has one result *)
Lemma swept_agree w k (A : list (list V)) x i1 j1 i2 j2 R R' : swept w k A x i1 j1 R -> swept w k A x i2 j2 R' ->
  forall i j, 0 <= i < zlen A -> 0 <= j < ncols A -> before i1 j1 i j = true -> before i2 j2 i j = true -> mget R i j = mget R' i j.
Proof using.
  intros (L & RR & H) (L' & RR' & H').
  assert (forall t, 0 <= t -> forall i j, i * ncols A + j = t -> 0 <= i < zlen A -> 0 <= j < ncols A -> before i1 j1 i j = true -> before i2 j2 i j = true -> mget R i j = mget R' i j) as K.
  { intros t Ht. pattern t. revert t Ht. apply Zlt_0_ind. intros t IH _ i j E Hi Hj B1 B2. pose proof (H i j Hi Hj) as K1. pose proof (H' i j Hi Hj) as K2. rewrite B1 in K1. rewrite B2 in K2.
    destruct K1 as (v & V1 & ->). destruct K2 as (v' & V2 & ->). rewrite (value2_ext _ (midway w k A R' i j)) in V1; [congruence|].
    intros k' p q. unfold midway. destruct (k' =? k); [|reflexivity]. destruct (before i j p q) eqn:B; [|reflexivity]. unfold Lazy2Spec.entry.
    destruct (Z_le_dec 0 p), (Z_lt_dec p (zlen A)), (Z_le_dec 0 q), (Z_lt_dec q (ncols A)); try (rewrite !(mget_none (ncols A)); auto; lia).
    rewrite (IH (p * ncols A + q)) with (i := p) (j := q); auto; try lia; try (now apply (before_trans i1 j1 i j)); try (now apply (before_trans i2 j2 i j)).
    unfold before in B. assert (0 <= p * ncols A) by nia. split; [lia|]. rewrite <- E. nia. }
  intros i j Hi Hj. apply (K (i * ncols A + j)); auto. nia.
Qed.
Lemma before_all m n i j : i < m -> before m n i j = true.
Proof using. unfold before. lia. Qed.
Theorem assign2_exact st w hs k A x R : represents2 c st w -> spelled2 x = true -> owned2 x -> znth w k = Some A -> shape2 w x = Some (zlen A, ncols A) ->
  swept w k A x (zlen A) 0 R -> exists st', gstep (st, hs) (DSet k x) = Next (st', hs) Done /\ represents2 c st' (zupd w k R).
Proof using All.
  intros HR HF HO HA HS HW. pose proof (assign2_thm zero c Hc st w hs k A x HR HF HO HA HS) as K.
  assert (forall R' i j, swept w k A x i j R' -> 0 <= i < zlen A -> 0 <= j < ncols A -> exists v, value2 (midway w k A R' i j) x i j = Ok v) as HV.
  { intros R' i j HW' Hi Hj. pose proof HW as (L & RR & H). pose proof HW' as (L' & RR' & H'). specialize (H i j Hi Hj). rewrite before_all in H by lia. destruct H as (v & Ev & _). exists v. rewrite <- Ev.
    apply value2_ext. intros k' p q. unfold midway. destruct (k' =? k); [|reflexivity]. destruct (before i j p q) eqn:B; [|reflexivity]. unfold Lazy2Spec.entry.
    destruct (Z_le_dec 0 p), (Z_lt_dec p (zlen A)), (Z_le_dec 0 q), (Z_lt_dec q (ncols A)); try (rewrite !(mget_none (ncols A)); auto; lia).
    rewrite (swept_agree w k A x i j (zlen A) 0 R' R HW' HW p q); auto; try lia. apply before_all. lia. }
  destruct (gstep (st, hs) (DSet k x)) as [[st' hs'] ob|].
  - destruct ob as [|v|n|f]; try contradiction; cbn [fst snd] in K.
    + destruct K as (-> & R' & HW' & HR'). exists st'. split; [reflexivity|]. assert (R = R') as ->; [|exact HR'].
      pose proof HW as (L & RR & _). pose proof HW' as (L' & RR' & _). apply (rect_ext (ncols A)); auto; [lia|]. intros i j Hi Hj. apply (swept_agree w k A x (zlen A) 0 (zlen A) 0 R R' HW HW'); auto; try lia; apply before_all; lia.
    + destruct K as (_ & R' & i & j & Hi & Hj & HW' & EV & _). destruct (HV R' i j HW' Hi Hj). congruence.
  - destruct K as (R' & i & j & Hi & Hj & HW' & EV). destruct (HV R' i j HW' Hi Hj). congruence.
Qed.
(** Where there are checks, other shapes are reported before anything is changed. *)
Theorem assign2_mismatch st w hs k A x : checked c = true -> represents2 c st w -> spelled2 x = true -> owned2 x -> (forall k', In k' (names_in x) -> znth w k' <> None) ->
  znth w k = Some A -> shape2 w x <> Some (zlen A, ncols A) ->
  gstep (st, hs) (DSet k x) = Next (st, hs) (Failed (report c)) /\ forall f, gstep (st, hs) (DUpd k f x) = Next (st, hs) (Failed (report c)).
Proof using All.
  intros HC HR HF HO HN HA HS. destruct (represents2_nth c st w k A HR HA) as (a & Ha & Hr & HL). cbn [Lazy2.gstep fst snd]. rewrite Ha.
  destruct (shape2 w x) as [[m n]|] eqn:S.
  - destruct (build_ok zero c Hc st w hs x _ HR HF HO S) as (e & -> & G). cbn [bind]. destruct (G st w HR (fun _ _ => eq_refl)) as (B & -> & YB). cbn [bind gon].
    pose proof YB as (D1 & D2 & _). cbn [mr mc fst snd] in *. pose proof Hr as (_ & R1 & R2 & _).
    assert (same_size2 (drows a) (dcols a) m n = false) as E. { unfold same_size2. rewrite R1, R2. destruct (Z.eqb_spec (zlen A) m); [|reflexivity]. destruct (Z.eqb_spec (ncols A) n); [|reflexivity]. subst. congruence. }
    unfold g_assign, g_update, arr2_assign_rd. rewrite D1, D2, E, check_debug_false by assumption. split; [|reflexivity]. cbn [gback fst snd]. now rewrite HeapProofs.zupd_id by exact Ha.
  - rewrite (build_none zero c Hc st w hs x) by assumption. split; reflexivity.
Qed.

(** ** Without transpositions of the target *)
Lemma value2_names (rd rd' : Z -> Z -> Z -> outcome V) x : (forall k, In k (names_in x) -> forall p q, rd k p q = rd' k p q) -> forall i j, value2 rd x i j = value2 rd' x i j.
Proof using.
  induction x as [k|h|m|f x IH|f x IHx y IHy|f x IH v|f v x IH|x IH]; intros H i j; cbn [value2 names_in] in *; auto.
  - apply H. now left.
  - now rewrite IH.
  - rewrite IHx, IHy; auto; intros; apply H, in_or_app; auto.
  - now rewrite IH.
  - now rewrite IH.
Qed.
Lemma upright_value w k A x R i j : znth w k = Some A -> upright k x = true -> value2 (midway w k A R i j) x i j = value2 (now w) x i j.
Proof using.
  intros HA. induction x as [k'|h|m|f x IH|f x IHx y IHy|f x IH v|f v x IH|x IH]; intros H; cbn [value2 upright] in *; auto.
  - unfold midway. destruct (Z.eqb_spec k' k) as [->|]; [|reflexivity]. replace (before i j i j) with false by (unfold before; lia). unfold now. now rewrite HA.
  - now rewrite IH.
  - apply andb_true_iff in H as [H1 H2]. now rewrite IHx, IHy.
  - now rewrite IH.
  - now rewrite IH.
  - apply value2_names. intros k' Hk p q. unfold midway. destruct (Z.eqb_spec k' k) as [->|]; [|reflexivity]. exfalso. apply negb_true_iff in H.
    assert (existsb (Z.eqb k) (names_in x) = true) by (apply existsb_exists; exists k; split; [assumption|apply Z.eqb_refl]). congruence.
Qed.
Theorem assign2_upright st w hs k A x R : represents2 c st w -> spelled2 x = true -> owned2 x -> znth w k = Some A -> upright k x = true ->
  matrix_of w x R -> zlen R = zlen A -> ncols R = ncols A ->
  exists st', gstep (st, hs) (DSet k x) = Next (st', hs) Done /\ represents2 c st' (zupd w k R).
Proof using All.
  intros HR HF HO HA HU (HW & HS & HV) L1 L2. rewrite L1, L2 in HS. apply (assign2_exact st w hs k A x R); auto. split; [exact L1|]. split; [rewrite <- L2; now apply wfm_rect|].
  intros i j Hi Hj. rewrite before_all by lia. destruct (mget_some (ncols R) R i j) as (v & Ev); [now apply wfm_rect|lia|lia|]. exists v. split; [|exact Ev].
  rewrite upright_value by assumption. now apply HV.
Qed.
(** ** Into new storage *)
Lemma fresh st w hs x R : represents2 c st w -> spelled2 x = true -> owned2 x -> matrix_of w x R -> zlen R * ncols R <= amax c ->
  exists a, (e <- gbuild c st hs x ;; A <- gx_src c st e ;; arr2_of_src zero c A) = Ok a /\ rep2 a R.
Proof using All.
  intros HR HF HO (HW & HS & HV) HL. destruct (build_ok zero c Hc st w hs x _ HR HF HO HS) as (e & -> & G). cbn [bind]. destruct (G st w HR (fun _ _ => eq_refl)) as (B & -> & YB). cbn [bind].
  destruct YB as (D1 & D2 & _ & _ & D3 & D4 & HU & HN). cbn [mr mc mel fst snd] in *.
  assert (produces2 B R) as HP.
  { split; [exact HW|]. repeat (split; [assumption|]). split.
    - intros i j Hi Hj. destruct (mget_some (ncols R) R i j) as (v & Ev); [now apply wfm_rect|lia|lia|]. exists v. split; [exact Ev|]. rewrite HU by assumption. now apply HV.
    - intros t Ht. pose proof (ncols_nonneg R). assert (0 < ncols R) by (destruct (Z.eq_dec (ncols R) 0) as [E0|]; [rewrite E0, Z.mul_0_r in Ht; lia|lia]). destruct (addr_div (zlen R) (ncols R) t) as (i & j & Hi & Hj & ->); auto. rewrite HN by assumption.
      destruct (mget_some (ncols R) R i j) as (v & Ev); [now apply wfm_rect|lia|lia|]. rewrite (HV i j v Ev). symmetry. apply oget_ok. rewrite (concat_get (ncols R)); auto. now apply wfm_rect. }
  pose proof (sim2_src zero c Hc B R HP) as K. unfold room2 in K. pose proof (zlen_nonneg R). pose proof (ncols_nonneg R). pose proof Hc as Hc'. unfold cfg_ok in Hc'.
  replace (in_long (zlen R * ncols R)) with true in K by (unfold in_long, LONG_MIN in *; symmetry; nia). unfold room in K. replace (amax c <? zlen R * ncols R) with false in K by lia. cbn [osim2] in K.
  destruct K as (a & E & Hr & _). eauto.
Qed.
Theorem fresh2 st w hs k x R : represents2 c st w -> spelled2 x = true -> owned2 x -> matrix_of w x R -> zlen R * ncols R <= amax c -> 0 <= k < zlen w ->
  (exists st', gstep (st, hs) (DRes k x) = Next (st', hs) Done /\ represents2 c st' (zupd w k R)) /\
  (exists st', gstep (st, hs) (DNew x) = Next (st', hs) Done /\ represents2 c st' (w ++ [R])).
Proof using All.
  intros HR HF HO HM HL Hk. destruct (fresh st w hs x R HR HF HO HM HL) as (a & E & Ha). cbn [Lazy2.gstep fst snd]. unfold arr2_resize_and_assign. rewrite E. cbn [gon]. split.
  - destruct (znth_some w k Hk) as (A & HA). destruct (represents2_nth c st w k A HR HA) as (a0 & -> & _). eexists. split; [reflexivity|]. now apply represents2_upd.
  - eexists. split; [reflexivity|]. apply Forall2_app; [exact HR|]. constructor; [now split|constructor].
Qed.

(** ** Compound assignment *)
Lemma nest {S} (F : Z -> S -> mut S) (n : nat) : forall (m : nat) i0 s,
  mfor_loop (m * n) (i0 * Z.of_nat n) F s = mfor_loop m i0 (fun i => mfor_loop n 0 (fun j => F (i * Z.of_nat n + j))) s.
Proof using.
  induction m as [|m IH]; intros i0 s; [reflexivity|]. cbn [Nat.mul]. rewrite mfor_loop_app. cbn [mfor_loop].
  destruct (mfor_loop_same (fun _ => True) F (fun j => F (i0 * Z.of_nat n + j)) n (i0 * Z.of_nat n) 0 s) as (E & _).
  - intros t s0 _ _. split; [|auto]. now replace (0 + t) with t by lia.
  - exact I.
  - rewrite E. unfold mseq, mbind. destruct (mfor_loop n 0 _ s); auto. replace (i0 * Z.of_nat n + Z.of_nat n) with ((i0 + 1) * Z.of_nat n) by lia. apply IH.
Qed.
Lemma compound2_loop (P : list V -> Prop) m n (F : Z -> list V -> mut (list V)) (H : Z -> Z -> list V -> mut (list V)) b : 0 <= m -> 0 <= n ->
  (forall i j b, 0 <= i < m -> 0 <= j < n -> P b -> F (i * n + j) b = H i j b /\ forall b', F (i * n + j) b = MOk b' -> P b') -> P b ->
  mfor 0 (m * n) F b = mfor 0 m (fun i => mfor 0 n (H i)) b.
Proof using.
  intros Hm Hn HH HP. unfold mfor. rewrite !Z.sub_0_r. replace (Z.to_nat (m * n)) with (Z.to_nat m * Z.to_nat n)%nat by (rewrite Z2Nat.inj_mul; lia).
  pose proof (nest F (Z.to_nat n) (Z.to_nat m) 0 b) as E. rewrite Z.mul_0_l in E. rewrite E. rewrite Z2Nat.id by lia.
  apply (mfor_loop_same P); [|exact HP]. intros i b0 Hi Pb. rewrite !Z.add_0_l. rewrite Z2Nat.id in Hi by lia.
  apply (mfor_loop_same P); [|exact Pb]. intros j b1 Hj Pb1. rewrite !Z.add_0_l. rewrite Z2Nat.id in Hj by lia. apply HH; auto.
Qed.
Theorem compound2 st w hs k A f x : represents2 c st w -> spelled2 x = true -> owned2 x -> znth w k = Some A -> shape2 w x = Some (zlen A, ncols A) ->
  gstep (st, hs) (DUpd k f x) = gstep (st, hs) (DSet k (TBin f (TArr k) x)).
Proof using All.
  intros HR HF HO HA HS. destruct (represents2_nth c st w k A HR HA) as (a & Ha & Hr & HL). destruct (build_ok zero c Hc st w hs x _ HR HF HO HS) as (e & EB & G).
  destruct (G st w HR (fun _ _ => eq_refl)) as (B & EG & YB). pose proof YB as (D1 & D2 & _). cbn [mr mc fst snd] in *. pose proof Hr as (Hw & R1 & R2 & _).
  cbn [Lazy2.gstep gbuild gx_src fst snd]. rewrite Ha. cbn [bind]. rewrite EB. cbn [bind gx_src]. rewrite Ha. cbn [bind]. rewrite EG. cbn [bind gon].
  cbn [src_of_arr2 s2rows s2cols]. rewrite D1, D2. replace (same_size2 (drows a) (dcols a) (zlen A) (ncols A)) with true by (unfold same_size2; lia). rewrite check_debug_true. cbn [bind gx_src].
  rewrite Ha. cbn [bind]. rewrite EG. cbn [bind gon]. unfold g_assign, g_update, arr2_assign_rd. cbn [src_of_arr2 s2rows s2cols fst snd]. rewrite D1, D2.
  replace (same_size2 (drows a) (dcols a) (zlen A) (ncols A)) with true by (unfold same_size2; lia). replace (same_size2 (drows a) (dcols a) (drows a) (dcols a)) with true by (unfold same_size2; lia).
  rewrite check_debug_true. f_equal. unfold refill at 1 2. rewrite (rep2_an a A Hr), R1, R2.
  set (N := zlen A) in *. set (K := ncols A) in *.
  assert (0 <= N /\ 0 <= K) as (HN & HK) by (split; [apply zlen_nonneg|apply ncols_nonneg]).
  rewrite (compound2_loop (fun b => zlen b = N * K) N K _ (fun i j b => commit b (v <- (A' <- reread2 c st k a (GBin f (GArr k) e) b ;; s2un A' i j) ;; set2 K b i j v)));
    [reflexivity|exact HN|exact HK| |exact (rep2_len a A Hr)].
  intros i j b Hi Hj Hb. pose proof (addr_range N K i j Hi Hj) as Hadr.
  assert (exists M, rep2 (refill a b) M) as (M & HM).
  { apply Array2DThms.sound_rep. unfold sound2, refill. cbn [drows dcols dat buf an]. rewrite R1, R2, (rep2_an a A Hr). unfold N, K in *. repeat split; auto; apply (wfm_zero A Hw). }
  pose proof HM as (HMw & M1 & M2 & _). cbn [refill drows dcols] in M1, M2. fold N in R1. fold K in R2.
  destruct (G (zupd st k (refill a b)) (zupd w k M)) as (A' & EA' & YA').
  { apply represents2_upd; [exact HR|exact HM|]. rewrite <- M1, <- M2, R1, R2. exact HL. }
  { intros k' _. unfold dims. rewrite znth_zupd by (apply znth_lt in HA; exact HA). destruct (Z.eqb_spec k' k) as [->|]; [|reflexivity]. rewrite HA. cbn [option_map]. rewrite <- M1, <- M2, R1, R2. reflexivity. }
  destruct YA' as (_ & _ & _ & _ & _ & _ & HU & HV). cbn [mr mc mel fst snd] in HU, HV. fold N K in HU, HV.
  unfold reread2. cbn [fst gx_src]. rewrite EA'. rewrite znth_zupd by (apply znth_lt in Ha; exact Ha). rewrite Z.eqb_refl. cbn [bind s2un src_of_arr2].
  rewrite HV, HU by assumption. destruct (znth_some b (i * K + j)) as (v & Ev); [lia|]. rewrite (oget_ok b _ v Ev). unfold un2. cbn [refill dcols dat buf]. rewrite R2.
  pose proof Hc as Hc'. unfold cfg_ok in Hc'. assert (0 <= i * K) by nia. rewrite lmul_ok by (unfold LONG_MIN; lia). cbn [bind]. rewrite ladd_ok by (unfold LONG_MIN; lia). cbn [bind]. rewrite (oget_ok b _ v Ev). cbn [bind].
  destruct (value2 (now (zupd w k M)) x i j) as [y|f'|]; cbn [bind commit]; [|split; [reflexivity|discriminate]|split; [reflexivity|discriminate]].
  destruct (f v y) as [z|f'|]; cbn [bind commit]; [|split; [reflexivity|discriminate]|split; [reflexivity|discriminate]].
  rewrite oset_ok by lia. rewrite (set2_ok N) by (auto; lia). cbn [commit]. split; [reflexivity|]. intros b' [= <-]. now rewrite zlen_zupd.
Qed.

(** ** The matrix and its own transpose *)
Definition mv (A : list (list V)) (i j : Z) : V := match mget A i j with Some v => v | None => zero end.
Lemma mv_some A i j : wfm A -> 0 <= i < zlen A -> 0 <= j < ncols A -> mget A i j = Some (mv A i j).
Proof using. intros HW Hi Hj. unfold mv. destruct (mget_some (ncols A) A i j (wfm_rect A HW) Hi Hj) as (v & ->). reflexivity. Qed.
Lemma square_swept w k (A : list (list V)) x (T : Z -> Z -> V) : wfm A -> zlen A = ncols A ->
  (forall R, zlen R = zlen A -> rect (ncols A) R -> (forall i j, 0 <= i < zlen A -> 0 <= j < zlen A -> mget R i j = Some (T i j)) ->
    forall i j, 0 <= i < zlen A -> 0 <= j < zlen A -> value2 (midway w k A R i j) x i j = Ok (T i j)) ->
  exists R, swept w k A x (zlen A) 0 R /\ zlen R = zlen A /\ rect (ncols A) R /\ forall i j, 0 <= i < zlen A -> 0 <= j < zlen A -> mget R i j = Some (T i j).
Proof using.
  intros HW HQ H. pose proof (zlen_nonneg A). exists (EigenSpec.grid (zlen A) (zlen A) T).
  assert (zlen (EigenSpec.grid (zlen A) (zlen A) T) = zlen A) as E1 by (apply EigenProofs.grid_len; lia).
  assert (rect (ncols A) (EigenSpec.grid (zlen A) (zlen A) T)) as E2 by (rewrite <- HQ; apply EigenProofs.grid_rect; lia).
  assert (forall i j, 0 <= i < zlen A -> 0 <= j < zlen A -> mget (EigenSpec.grid (zlen A) (zlen A) T) i j = Some (T i j)) as E3 by (intros; now apply EigenProofs.grid_get).
  split; [|auto]. split; [exact E1|]. split; [exact E2|]. intros i j Hi Hj. rewrite before_all by lia. exists (T i j). rewrite <- HQ in Hj. split; [|now apply E3]. now apply H.
Qed.
Theorem transpose_self st w hs k A : represents2 c st w -> znth w k = Some A -> zlen A = ncols A ->
  exists st' R, gstep (st, hs) (DSet k (TTrans (TArr k))) = Next (st', hs) Done /\ represents2 c st' (zupd w k R) /\
    zlen R = zlen A /\ rect (ncols A) R /\ (forall i j, 0 <= i < zlen A -> 0 <= j < zlen A -> mget R i j = mget A (Z.max i j) (Z.min i j)) /\
    (transpose_of A R <-> symmetric A).
Proof using All.
  intros HR HA HQ. destruct (represents2_nth c st w k A HR HA) as (a & Ha & Hr & HL). pose proof Hr as (Hw & _).
  destruct (square_swept w k A (TTrans (TArr k)) (fun i j => mv A (Z.max i j) (Z.min i j)) Hw HQ) as (R & HW & L & RR & HG).
  - intros R _ _ HT i j Hi Hj. cbn [value2]. unfold midway. rewrite Z.eqb_refl. unfold Lazy2Spec.entry. destruct (before i j j i) eqn:B; unfold before in B.
    + rewrite HT by lia. now rewrite Z.max_comm, Z.min_comm.
    + rewrite mv_some by (auto; lia). replace (Z.max i j) with j by lia. now replace (Z.min i j) with i by lia.
  - destruct (assign2_exact st w hs k A (TTrans (TArr k)) R) as (st' & E & HR'); auto; [exact I|cbn [shape2]; rewrite HA; congruence|].
    assert (forall i j, 0 <= i < zlen A -> 0 <= j < zlen A -> mget R i j = mget A (Z.max i j) (Z.min i j)) as HM.
    { intros i j Hi Hj. rewrite HG by assumption. symmetry. apply mv_some; auto; lia. }
    exists st', R. repeat (split; [assumption|]). split.
    + intros (_ & HT) i j.
      destruct (Z_le_dec 0 i), (Z_lt_dec i (zlen A)), (Z_le_dec 0 j), (Z_lt_dec j (zlen A)); try (rewrite !(mget_none (ncols A)); auto; try (now apply wfm_rect); lia).
      destruct (Z_le_dec i j).
      * specialize (HT j i). rewrite HM in HT by lia. replace (Z.max j i) with j in HT by lia. replace (Z.min j i) with i in HT by lia. now rewrite HT.
      * specialize (HT i j). rewrite HM in HT by lia. replace (Z.max i j) with i in HT by lia. now replace (Z.min i j) with j in HT by lia.
    + intros HSy. split; [congruence|]. intros i j.
      destruct (Z_le_dec 0 i), (Z_lt_dec i (zlen A)), (Z_le_dec 0 j), (Z_lt_dec j (zlen A)); try (rewrite !(mget_none (ncols A)); auto; try (now apply wfm_rect); lia).
      rewrite HM by lia. destruct (Z_le_dec i j).
      * replace (Z.max i j) with j by lia. now replace (Z.min i j) with i by lia.
      * replace (Z.max i j) with i by lia. replace (Z.min i j) with j by lia. apply HSy.
Qed.
Theorem add_transpose st w hs k A (f : V -> V -> outcome V) (g : V -> V -> V) : represents2 c st w -> znth w k = Some A -> zlen A = ncols A -> (forall u v, f u v = Ok (g u v)) ->
  exists st' R, gstep (st, hs) (DUpd k f (TTrans (TArr k))) = Next (st', hs) Done /\ represents2 c st' (zupd w k R) /\
    forall i j u v, 0 <= i < zlen A -> 0 <= j < zlen A -> mget A i j = Some u -> mget A j i = Some v ->
      mget R i j = Some (if i <=? j then g u v else g u (g v u)).
Proof using All.
  intros HR HA HQ Hf. destruct (represents2_nth c st w k A HR HA) as (a & Ha & Hr & HL). pose proof Hr as (Hw & _).
  set (T := fun i j => if i <=? j then g (mv A i j) (mv A j i) else g (mv A i j) (g (mv A j i) (mv A i j))).
  assert (shape2 w (TTrans (TArr k)) = Some (zlen A, ncols A)) as HS by (cbn [shape2]; rewrite HA; congruence).
  assert (owned2 (TTrans (V := V) (TArr k))) as HO by exact I.
  rewrite (compound2 st w hs k A f (TTrans (TArr k)) HR eq_refl HO HA HS).
  destruct (square_swept w k A (TBin f (TArr k) (TTrans (TArr k))) T Hw HQ) as (R & HW & L & RR & HG).
  - intros R _ _ HT i j Hi Hj. cbn [value2]. unfold midway. rewrite Z.eqb_refl. replace (before i j i j) with false by (unfold before; lia). unfold Lazy2Spec.entry. rewrite (mv_some A i j) by (auto; lia). cbn [bind].
    destruct (before i j j i) eqn:B; unfold before in B.
    + rewrite HT by lia. cbn [bind]. rewrite Hf. unfold T. replace (j <=? i) with true by lia. now replace (i <=? j) with false by lia.
    + rewrite (mv_some A j i) by (auto; lia). cbn [bind]. rewrite Hf. unfold T. now replace (i <=? j) with true by lia.
  - destruct (assign2_exact st w hs k A (TBin f (TArr k) (TTrans (TArr k))) R) as (st' & E & HR'); auto; [split; exact I| |].
    { cbn [shape2] in *. rewrite HA in *. injection HS as -> _. now rewrite !Z.eqb_refl. }
    exists st', R. split; [exact E|]. split; [exact HR'|]. intros i j u v Hi Hj Eu Ev. rewrite HG by assumption. unfold T, mv. now rewrite Eu, Ev.
Qed.

(** ** Kept expressions *)
Definition adims st (k : Z) : option (Z * Z) := option_map (fun a => (drows a, dcols a)) (znth st k).
Definition same_src (m m' : outcome (src2 V)) : Prop :=
  match m, m' with Ok A, Ok A' => s2rows A = s2rows A' /\ s2cols A = s2cols A' | Fail f, Fail f' => f = f' | UB, UB => True | _, _ => False end.
Lemma build_by_dims st st' hs x : spelled2 x = true -> (forall k, In k (names_in x) -> adims st k = adims st' k) ->
  gbuild c st hs x = gbuild c st' hs x /\ forall e, gbuild c st hs x = Ok e -> same_src (gx_src c st e) (gx_src c st' e).
Proof using.
  induction x as [k|h|m|f x IH|f x IHx y IHy|f x IH v|f v x IH|x IH]; intros HF HN; cbn [spelled2 names_in gbuild] in *.
  - specialize (HN k (or_introl eq_refl)). unfold adims in HN. destruct (znth st k) as [a|] eqn:E, (znth st' k) as [a'|] eqn:E'; cbn [option_map] in HN; try discriminate; (split; [reflexivity|]); [|discriminate].
    intros e [= <-]. cbn [gx_src]. rewrite E, E'. cbn [same_src src_of_arr2 s2rows s2cols]. injection HN as -> ->. auto.
  - discriminate.
  - split; [reflexivity|]. destruct m as [A|f|]; cbn [bind]; try discriminate. intros e [= <-]. cbn. auto.
  - destruct (IH HF HN) as (<- & K). split; [reflexivity|]. destruct (gbuild c st hs x) as [e0|f0|]; cbn [bind]; try discriminate. intros e [= <-]. specialize (K e0 eq_refl). cbn [gx_src].
    destruct (gx_src c st e0), (gx_src c st' e0); cbn [same_src bind] in *; auto.
  - apply andb_true_iff in HF as [F1 F2]. destruct (IHx F1) as (<- & K1); [intros; apply HN, in_or_app; auto|]. destruct (IHy F2) as (<- & K2); [intros; apply HN, in_or_app; auto|].
    destruct (gbuild c st hs x) as [e1|f1|]; cbn [bind]; [|split; [reflexivity|discriminate]|split; [reflexivity|discriminate]].
    destruct (gbuild c st hs y) as [e2|f2|]; cbn [bind]; [|split; [reflexivity|discriminate]|split; [reflexivity|discriminate]].
    specialize (K1 e1 eq_refl). specialize (K2 e2 eq_refl). destruct (gx_src c st e1) as [A1|g1|] eqn:G1, (gx_src c st' e1) as [A1'|g1'|] eqn:G1'; cbn [same_src bind] in *; try contradiction;
      [|subst; split; [reflexivity|discriminate]|split; [reflexivity|discriminate]].
    destruct (gx_src c st e2) as [A2|g2|] eqn:G2, (gx_src c st' e2) as [A2'|g2'|] eqn:G2'; cbn [same_src bind] in *; try contradiction;
      [|subst; split; [reflexivity|discriminate]|split; [reflexivity|discriminate]].
    rewrite (proj1 K1), (proj2 K1), (proj1 K2), (proj2 K2). split; [reflexivity|]. destruct (check_debug c _); cbn [bind]; try discriminate. intros e [= <-].
    cbn [gx_src]. rewrite G1, G2, G1', G2'. cbn [bind same_src s2rows s2cols]. exact K1.
  - destruct (IH HF HN) as (<- & K). destruct (gbuild c st hs x) as [e1|f1|]; cbn [bind]; [|split; [reflexivity|discriminate]|split; [reflexivity|discriminate]].
    specialize (K e1 eq_refl). destruct (gx_src c st e1) as [A1|g1|] eqn:G1, (gx_src c st' e1) as [A1'|g1'|] eqn:G1'; cbn [same_src bind] in *; try contradiction;
      [|subst; split; [reflexivity|discriminate]|split; [reflexivity|discriminate]].
    rewrite (proj1 K), (proj2 K). split; [reflexivity|]. destruct (x_const2 c _ _ v) as [B|g|]; cbn [bind]; try discriminate. destruct (check_debug c _); cbn [bind]; try discriminate. intros e [= <-].
    cbn [gx_src]. rewrite G1, G1'. cbn [bind same_src s2rows s2cols]. exact K.
  - destruct (IH HF HN) as (<- & K). destruct (gbuild c st hs x) as [e1|f1|]; cbn [bind]; [|split; [reflexivity|discriminate]|split; [reflexivity|discriminate]].
    specialize (K e1 eq_refl). destruct (gx_src c st e1) as [A1|g1|] eqn:G1, (gx_src c st' e1) as [A1'|g1'|] eqn:G1'; cbn [same_src bind] in *; try contradiction;
      [|subst; split; [reflexivity|discriminate]|split; [reflexivity|discriminate]].
    rewrite (proj1 K), (proj2 K). split; [reflexivity|]. destruct (x_const2 c _ _ v) as [B|g|]; cbn [bind]; try discriminate. destruct (check_debug c _); cbn [bind]; try discriminate. intros e [= <-].
    cbn [gx_src]. rewrite G1, G1'. cbn [bind same_src s2rows s2cols]. auto.
  - destruct (IH HF HN) as (<- & K). destruct (gbuild c st hs x) as [e1|f1|]; cbn [bind]; [|split; [reflexivity|discriminate]|split; [reflexivity|discriminate]].
    specialize (K e1 eq_refl). destruct (gx_src c st e1) as [A1|g1|] eqn:G1, (gx_src c st' e1) as [A1'|g1'|] eqn:G1'; cbn [same_src bind] in *; try contradiction;
      [|subst; split; [reflexivity|discriminate]|split; [reflexivity|discriminate]].
    rewrite (proj1 K), (proj2 K). split; [reflexivity|]. destruct (check_debug c (Ok (-1 <? s2cols A1'))); cbn [bind]; try discriminate. destruct (check_debug c _); cbn [bind]; try discriminate. intros e [= <-].
    cbn [gx_src]. rewrite G1, G1'. cbn [bind]. destruct (lmul _ _); cbn [bind same_src s2rows s2cols]; auto.
Qed.
Lemma ops_run2 ops : forall st hs st' t rest, run (step2 zero c) st ops = (Next st' Done, t) ->
  run gstep (st, hs) (map DOp ops ++ rest) = (fst (run gstep (st', hs) rest), t ++ snd (run gstep (st', hs) rest)).
Proof using.
  induction ops as [|o ops IH]; intros st hs st' t rest E; cbn [run map app] in *.
  - injection E as <- <-. now destruct (run gstep (st, hs) rest).
  - cbn [Lazy2.gstep fst snd]. destruct (step2 zero c st o) as [st1 ob|]; [|discriminate]. destruct ob as [|v|n|f].
    1-3: destruct (run (step2 zero c) st1 ops) as [r1 t1] eqn:E1; injection E as -> <-; rewrite (IH st1 hs st' t1 rest E1); reflexivity.
    destruct (fatal f); [discriminate|]. destruct (run (step2 zero c) st1 ops) as [r1 t1] eqn:E1; injection E as -> <-; rewrite (IH st1 hs st' t1 rest E1); reflexivity.
Qed.
Theorem deferred2 st st' x ops t u : spelled2 x = true -> keepable x = true -> snd (run gstep (st, []) [DLet x]) = [Done] -> run (step2 zero c) st ops = (Next st' Done, t) ->
  (forall k, In k (names_in x) -> option_map (fun a => (drows a, dcols a)) (znth st k) = option_map (fun a => (drows a, dcols a)) (znth st' k)) ->
  exists r s, run gstep (st, []) (DLet x :: map DOp ops ++ u) = (r, Done :: t ++ s) /\
              run gstep (st, []) (map DOp ops ++ DLet x :: u) = (r, t ++ Done :: s).
Proof using.
  intros HF HK HB HR HN. destruct (build_by_dims st st' [] x HF HN) as (EB & _). rewrite (ops_run2 ops st [] st' t (DLet x :: u) HR).
  cbn [run Lazy2.gstep fst snd] in *. rewrite HK in *. rewrite <- EB. destruct (gbuild c st [] x) as [e|f|]; cbn [gon] in *; [|destruct (fatal f); discriminate|discriminate].
  cbn [app] in *. rewrite (ops_run2 ops st [e] st' t u HR). destruct (run gstep (st', [e]) u) as [r s]. exists r, s. split; reflexivity.
Qed.
(** A transpose kept while the matrix changes its shape. *)
Theorem stale_transpose st st' w w' k M M' ops t i j : represents2 c st w -> znth w k = Some M -> run (step2 zero c) st ops = (Next st' Done, t) -> represents2 c st' w' -> znth w' k = Some M' ->
  0 <= i < ncols M -> 0 <= j < zlen M -> j * ncols M' + i <= LONG_MAX ->
  let r := run gstep (st, []) (DLet (TTrans (TArr k)) :: map DOp ops ++ [DRows 0; DCols 0; DGet 0 (Plain i) (Plain j)]) in
  match znth (concat M') (j * ncols M' + i) with
  | Some v => snd r = Done :: t ++ [Number (ncols M); Number (zlen M); Value v]
  | None => fst r = Crash
  end.
Proof using All.
  intros HR HM HO HR' HM' Hi Hj HB r. unfold r. clear r. destruct (represents2_nth c st w k M HR HM) as (a & Ha & Hr & HL). destruct (represents2_nth c st' w' k M' HR' HM') as (a' & Ha' & Hr' & HL').
  pose proof Hr as (Hw & R1 & R2 & _). pose proof Hr' as (Hw' & R1' & R2' & R3' & _). pose proof Hc as Hc'. unfold cfg_ok in Hc'. pose proof (ncols_nonneg M').
  cbn [run Lazy2.gstep keepable gbuild fst snd]. rewrite Ha. cbn [bind gx_src]. rewrite Ha. cbn [bind src_of_arr2 s2rows s2cols]. rewrite R1, R2.
  replace (-1 <? ncols M) with true by lia. replace (-1 <? zlen M) with true by lia. rewrite !check_debug_true. cbn [bind gon app].
  rewrite (ops_run2 ops st _ st' t _ HO). cbn [run Lazy2.gstep fst snd znth]. rewrite znth_cons_0. cbn [gx_src]. rewrite Ha'. cbn [bind].
  assert (ncols M * zlen M <= LONG_MAX) by lia. assert (0 <= ncols M * zlen M) by nia. rewrite lmul_ok by (unfold LONG_MIN; lia). cbn [bind gon s2rows s2cols fst snd]. rewrite znth_cons_0. cbn [gx_src].
  rewrite Ha'. cbn [bind]. rewrite lmul_ok by (unfold LONG_MIN; lia). cbn [bind gon s2rows s2cols fst snd]. rewrite znth_cons_0. cbn [gx_src]. rewrite Ha'. cbn [bind]. rewrite lmul_ok by (unfold LONG_MIN; lia). cbn [bind].
  unfold sub2. cbn [idx_get bind s2rows s2cols s2un src_of_arr2]. unfold valid_index2, valid_row, valid_col.
  match goal with |- context [check_debug c (Ok ?b)] => replace b with true by (cbn; lia) end. rewrite check_debug_true. cbn [bind]. unfold un2. rewrite R2'. assert (0 <= j * ncols M') by nia.
  rewrite lmul_ok by (unfold LONG_MIN; lia). cbn [bind]. rewrite ladd_ok by (unfold LONG_MIN; lia). cbn [bind]. rewrite R3'. unfold oget. destruct (znth (concat M') (j * ncols M' + i)); cbn [gon]; reflexivity.
Qed.

(** ** Variables do not disturb each other *)
Lemma gbuild_more st hs e x : uses_below (zlen hs) x = true -> gbuild c st (hs ++ [e]) x = gbuild c st hs x.
Proof using.
  induction x as [k|h|m|f x IH|f x IHx y IHy|f x IH v|f v x IH|x IH]; cbn [uses_below gbuild]; intros H; try reflexivity; try (rewrite (IH H); reflexivity).
  - rewrite znth_app_l by lia. reflexivity.
  - apply andb_prop in H as [Hx Hy]. rewrite (IHx Hx), (IHy Hy). reflexivity.
Qed.
(** The same but for one more variable. *)
Definition plus_var (e : gex V) (r : res (store * list (gex V)) V) : res (store * list (gex V)) V :=
  match r with Next s ob => Next (fst s, snd s ++ [e]) ob | Crash => Crash end.
Lemma gstep_more st hs e t : stays_below (zlen hs) t = true -> gstep (st, hs ++ [e]) t = plus_var e (gstep (st, hs) t) /\
  match gstep (st, hs) t with Next s _ => snd s = hs | Crash => True end.
Proof using.
  destruct t as [o|x|h ix jx|h|h|x|k x|k f x|k x]; cbn [stays_below]; intros H; try discriminate; unfold Lazy2.gstep; cbn [fst snd].
  - destruct (step2 zero c st o); split; reflexivity.
  - rewrite znth_app_l by lia. destruct (znth hs h); [|split; reflexivity]. destruct (_ <- _ ;; _); split; reflexivity.
  - rewrite znth_app_l by lia. destruct (znth hs h); [|split; reflexivity]. destruct (_ <- _ ;; _); split; reflexivity.
  - rewrite znth_app_l by lia. destruct (znth hs h); [|split; reflexivity]. destruct (_ <- _ ;; _); split; reflexivity.
  - rewrite (gbuild_more _ _ _ _ H). destruct (_ <- _ ;; _); split; reflexivity.
  - rewrite (gbuild_more _ _ _ _ H). destruct (znth st k) as [a|]; [|split; reflexivity]. destruct (_ <- _ ;; _) as [[e' A]| |]; cbn [gon]; try (split; reflexivity).
    unfold g_assign, gback. cbn [fst snd]. destruct (arr2_assign_rd _ _ _ _ _); split; reflexivity.
  - rewrite (gbuild_more _ _ _ _ H). destruct (znth st k) as [a|]; [|split; reflexivity]. destruct (_ <- _ ;; _) as [[e' A]| |]; cbn [gon]; try (split; reflexivity).
    unfold g_update, gback. cbn [fst snd]. destruct (check_debug _ _); try (split; reflexivity). destruct (mbind _ _ _); split; reflexivity.
  - rewrite (gbuild_more _ _ _ _ H). destruct (znth st k) as [a|]; [|split; reflexivity]. destruct (_ <- _ ;; _); split; reflexivity.
Qed.
Theorem more_vars st hs e ts : forallb (stays_below (zlen hs)) ts = true ->
  run gstep (st, hs ++ [e]) ts = (plus_var e (fst (run gstep (st, hs) ts)), snd (run gstep (st, hs) ts)).
Proof using.
  revert st. induction ts as [|t ts IH]; intros st H; [reflexivity|]. cbn [forallb] in H. apply andb_prop in H as [Ht H]. cbn [run].
  destruct (gstep_more st hs e t Ht) as (E & K). rewrite E. destruct (gstep (st, hs) t) as [[st' hs'] ob|]; cbn [plus_var fst snd] in *; [|reflexivity]. subst hs'. pose proof (IH st' H) as IH'.
  destruct ob; try (rewrite IH'; destruct (run gstep (st', hs) ts); reflexivity).
  destruct (fatal f); [reflexivity|]. rewrite IH'. destruct (run gstep (st', hs) ts); reflexivity.
Qed.
Theorem apart_vars st hs y ts : snd (run gstep (st, hs) [DLet y]) = [Done] -> forallb (stays_below (zlen hs)) ts = true ->
  snd (run gstep (st, hs) (DLet y :: ts)) = Done :: snd (run gstep (st, hs) ts) /\
  match fst (run gstep (st, hs) (DLet y :: ts)), fst (run gstep (st, hs) ts) with
  | Next s ob, Next s' ob' => fst s = fst s' /\ ob = ob'
  | Crash, Crash => True
  | _, _ => False
  end.
Proof using.
  intros HD HT. assert (exists e, gstep (st, hs) (DLet y) = Next (st, hs ++ [e]) Done) as (e & E).
  { cbn [run] in HD. unfold Lazy2.gstep in *. cbn [fst snd] in *. destruct (keepable y); [|discriminate].
    destruct (gbuild c st hs y) as [e|f|]; cbn [gon] in *; [now exists e|destruct (fatal f); discriminate|discriminate]. }
  cbn [run]. rewrite E, (more_vars st hs e ts HT). cbn [fst snd]. split; [reflexivity|]. destruct (fst (run gstep (st, hs) ts)); cbn; auto.
Qed.
End T.
