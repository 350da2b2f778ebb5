(** What the library hands to code outside it. *)
From Coq Require Import ZArith Reals Lra Lia.
From Flocq Require Import Core BinarySingleNaN Mult_error.
From Verif Require Import Base.Outcome Base.ZList Model.IntModel Model.ScalarOps Model.Index Model.Slice Model.Array1D Model.Array2D Model.View2D Model.Expr Model.Reduce.
From Verif Require Import Model.StableOps Model.FloatModel Model.Store1D Model.Heap Model.Heap2D Model.Handoff.
From Verif Require Import Spec.ArraySpec Spec.ExprSpec Spec.MatrixSpec Spec.Matrix2Spec Spec.Store1DSpec Spec.FloatSpec.
From Verif Require Import Proofs.Array1DProofs Proofs.Store1DProofs Proofs.MatrixProofs Proofs.Array2DSim Proofs.Array2DProofs Proofs.PlainAcc Proofs.ExprMore Proofs.StableNorms Proofs.GridProofs.
Import ListNotations.
Local Open Scope Z_scope.

(** ** Copies for C functions *)
Section BLAS.
Context {V : Type} (zero : V) (c : cfg).
Lemma fill_fails (f : Z -> outcome V) x k : forall lo s b, (forall i, lo <= i < lo + s -> exists v, f i = Ok v) -> f (lo + s) = x -> (forall v, x <> Ok v) -> 0 <= s < Z.of_nat k -> 0 <= lo -> lo + Z.of_nat k <= zlen b ->
  for_loop k lo (fun i b => v <- f i ;; oset b i v) b = match x with Fail e => Fail e | _ => UB end.
Proof.
  induction k as [|k IH]; intros lo s b H E N S L B; [lia|]. cbn [for_loop]. destruct (Z.eq_dec s 0) as [->|].
  - rewrite Z.add_0_r in E. rewrite E. destruct x as [v| |]; [now destruct (N v)|reflexivity|reflexivity].
  - destruct (H lo) as (v & ->); [lia|]. cbn [bind]. unfold oset. replace ((0 <=? lo) && (lo <? zlen b)) with true by lia. cbn [bind].
    rewrite (IH (lo + 1) (s - 1)); auto; [intros; apply H; lia|rewrite <- E; f_equal; lia|lia|lia|rewrite zlen_zupd; lia].
Qed.
Theorem blas_array_thm (A : src1 V) l : yields A l ->
  (l = [] -> blas_array zero c A = Ok None) /\
  (l <> [] -> amax c < zlen l -> blas_array zero c A = Fail BadAlloc) /\
  (l <> [] -> zlen l <= amax c -> forall x, l = map Ok x -> blas_array zero c A = Ok (Some x)) /\
  (zlen l <= amax c -> forall x e k, l = map Ok x ++ e :: k -> (forall v, e <> Ok v) -> blas_array zero c A = match e with Fail f => Fail f | _ => UB end).
Proof.
  intros (ES & _ & EL). unfold blas_array. rewrite ES. split; [|split; [|split]].
  - now intros ->.
  - intros N B. assert (zlen l <> 0) by (intros Z0; apply N; now apply zlen_zero). replace (zlen l =? 0) with false by lia. unfold alloc. now replace (_ || _) with true by lia.
  - intros N B x ->. assert (zlen (map Ok x) <> 0) by (intros Z0; apply N; now apply zlen_zero). replace (zlen _ =? 0) with false by lia. unfold alloc. pose proof (zlen_nonneg (map Ok x)). replace (_ || _) with false by lia. cbn [bind].
    rewrite zlen_map in *. rewrite (for_table (sun A) (fun i => match znth x i with Some v => v | None => zero end)).
    + cbn [bind]. do 2 f_equal. apply list_ext_zlen; [rewrite zlen_map, zlen_zseq; lia|]. intros i Hi. rewrite zlen_map, zlen_zseq in Hi. rewrite znth_map_zseq by lia. cbn [Z.add]. destruct (znth_some x i) as (v & Hv); [lia|]. now rewrite Hv.
    + lia.
    + unfold zlen. rewrite repeat_length. unfold zlen in *. lia.
    + intros i Hi. rewrite EL by exact Hi. unfold elt. rewrite znth_map. destruct (znth_some x i Hi) as (v & ->). reflexivity.
  - intros B x e k -> N. pose proof (zlen_nonneg x). pose proof (zlen_nonneg k). rewrite zlen_app, zlen_map, zlen_cons in *. replace (_ =? 0) with false by lia. unfold alloc. replace (_ || _) with false by lia. cbn [bind]. unfold for_. rewrite Z.sub_0_r.
    rewrite (fill_fails (sun A) e _ 0 (zlen x)).
    + now destruct e.
    + intros i Hi. rewrite EL by lia. unfold elt. rewrite znth_app_l by (rewrite zlen_map; lia). rewrite znth_map. destruct (znth_some x i) as (v & ->); [lia|]. now exists v.
    + rewrite EL by lia. unfold elt. rewrite znth_app_r by (rewrite zlen_map; lia). rewrite zlen_map. replace (0 + zlen x - zlen x) with 0 by lia. now rewrite znth_cons_0.
    + exact N.
    + lia.
    + lia.
    + unfold zlen at 3. rewrite repeat_length. lia.
Qed.
End BLAS.

(** ** Comparison with a list *)
Section LISTS.
Context {V : Type} (zero : V) (c : cfg) (Hc : cfg_ok c) (eqb : V -> V -> bool).
Lemma arr_yields l : zlen l <= amax c -> exists a, arr_of_list zero c l = Ok a /\ yields (src_of_arr a) (map Ok l).
Proof.
  intros H. destruct (arr_of_src_ok zero c (src_of_list l) l (produces_list l) H) as (a & E & E1 & E2). exists a. split; [exact E|]. unfold yields. rewrite zlen_map. cbn. split; [congruence|]. split; [unfold cfg_ok in Hc; lia|].
  intros i Hi. rewrite E1. unfold elt, oget. rewrite znth_map. now destruct (znth_some l i Hi) as (v & ->).
Qed.
Theorem equal_list_thm (A : src1 V) x l : yields A (map Ok x) -> zlen l <= amax c -> exists b b',
  equal_list zero c (neqo eqb) A l = Ok b /\ (b = true <-> zlen x = zlen l /\ forall i u v, znth x i = Some u -> znth l i = Some v -> eqb u v = true) /\
  list_equal zero c (neqo eqb) l A = Ok b' /\ (b' = true <-> zlen x = zlen l /\ forall i u v, znth x i = Some u -> znth l i = Some v -> eqb v u = true).
Proof.
  intros HA HL. destruct (arr_yields l HL) as (a & E & Y). unfold equal_list, list_equal. rewrite E. cbn [bind].
  destruct (eq1_ok eqb A _ x l HA Y) as (b & Eb & _ & Hb). destruct (eq1_ok eqb _ A l x Y HA) as (b' & Eb' & _ & Hb'). exists b, b'. split; [exact Eb|]. split; [exact Hb|]. split; [exact Eb'|]. rewrite Hb'. split; intros [H1 H2]; (split; [lia|eauto]).
Qed.
Lemma arr2_any (L M : list (list V)) : spec_list2 c L = Ok M -> exists a, arr2_of_list zero c L = Ok a /\ produces2 (src_of_arr2 a) M /\ zlen M * ncols M <= LONG_MAX.
Proof.
  intros ES. pose proof (sim2_list zero c Hc L) as H. rewrite ES in H. destruct H as (a & E & HR & HM). { now right. } exists a. split; [exact E|]. split; [exact (produces2_arr zero c Hc a M HR HM)|]. unfold small in HM. unfold cfg_ok in Hc. lia.
Qed.
Lemma yields2_mat (A : src2 V) M : produces2 A M -> zlen M * ncols M <= LONG_MAX -> zlen M <= LONG_MAX -> ncols M <= LONG_MAX ->
  yields2 A (mkmx (zlen M) (ncols M) (fun i j => Ok (match mget M i j with Some v => v | None => zero end))).
Proof.
  intros ((HR & _) & E1 & E2 & E3 & E4 & E5) B1 B2 B3. pose proof (zlen_nonneg M). assert (0 <= ncols M) by (destruct M; [cbn; lia|apply zlen_nonneg]).
  unfold yields2. cbn [mr mc mel]. repeat split; try assumption.
  - intros i j Hi Hj. destruct (E4 i j Hi Hj) as (v & -> & ->). reflexivity.
  - intros i j Hi Hj. rewrite E5 by nia. unfold oget. rewrite (concat_get _ _ _ _ HR Hi Hj). now destruct (E4 i j Hi Hj) as (v & -> & _).
Qed.
Lemma spec_rect (L : list (list V)) : wfm L -> zlen L * ncols L <= amax c -> spec_list2 c L = Ok L.
Proof.
  intros [HR HP] HS. unfold spec_list2. destruct L as [|r L]; [reflexivity|]. specialize (HP ltac:(discriminate)). cbn [ncols] in *.
  assert (G : good_list (r :: L) = true). { destruct r as [|v r]; [change (zlen (@nil V)) with 0 in HP; lia|]. cbn [good_list]. apply andb_true_intro. split; [lia|]. apply forallb_forall. intros q Hq. unfold rect in HR. rewrite Forall_forall in HR. rewrite (HR q Hq). apply Z.eqb_refl. }
  assert (room2 c (zlen (r :: L)) (zlen r) (guard c (good_list (r :: L)) (Ok (r :: L))) = Ok (r :: L)) as ER. { unfold room2, room, guard. rewrite G. unfold cfg_ok in Hc. pose proof (zlen_nonneg (r :: L)). unfold in_long. replace (_ && _) with true by (unfold LONG_MIN, LONG_MAX in *; nia). now replace (amax c <? zlen (r :: L) * zlen r) with false by lia. }
  destruct r as [|v r]; [change (zlen (@nil V)) with 0 in HP; lia|]. destruct L; exact ER.
Qed.
Theorem equal_list2_thm (A : src2 V) m n f L : yields2 A (mkmx m n (fun i j => Ok (f i j))) -> wfm L -> zlen L * ncols L <= amax c -> exists b b',
  equal_list2 zero c (neqo eqb) A L = Ok b /\ (b = true <-> m = zlen L /\ n = ncols L /\ forall i j v, mget L i j = Some v -> eqb (f i j) v = true) /\
  list_equal2 zero c (neqo eqb) L A = Ok b' /\ (b' = true <-> m = zlen L /\ n = ncols L /\ forall i j v, mget L i j = Some v -> eqb v (f i j) = true).
Proof.
  intros HA HW HS. destruct (arr2_any L L (spec_rect L HW HS)) as (a & E & P & B). assert (B2 : zlen L <= LONG_MAX /\ ncols L <= LONG_MAX).
  { destruct HW as [_ HP]. destruct L as [|r L]; [cbn; unfold LONG_MAX; lia|]. specialize (HP ltac:(discriminate)). rewrite zlen_cons in *. pose proof (zlen_nonneg L). nia. }
  pose proof (yields2_mat _ L P B (proj1 B2) (proj2 B2)) as Y. unfold equal_list2, list_equal2. rewrite E. cbn [bind].
  assert (G : forall i j v, mget L i j = Some v -> 0 <= i < zlen L /\ 0 <= j < ncols L).
  { intros i j v H. unfold mget in H. destruct (znth L i) as [r|] eqn:R; [|discriminate]. apply znth_lt in H. split; [now apply znth_lt in R|]. destruct HW as [HR _]. unfold rect in HR. rewrite Forall_forall in HR. rewrite <- (HR r); [exact H|]. eapply znth_in; eauto. }
  assert (T : forall i j, 0 <= i < zlen L -> 0 <= j < ncols L -> exists v, mget L i j = Some v) by (intros i j Hi Hj; destruct P as (_ & _ & _ & _ & P & _); destruct (P i j Hi Hj) as (v & -> & _); eauto).
  destruct (eq2_ok eqb A _ m n _ _ _ _ HA Y) as (b & Eb & _ & Hb). destruct (eq2_ok eqb _ A _ _ m n _ _ Y HA) as (b' & Eb' & _ & Hb'). exists b, b'. split; [exact Eb|]. split; [|split; [exact Eb'|]].
  - rewrite Hb. split; intros (-> & -> & H); repeat split; auto.
    + intros i j v Ev. destruct (G i j v Ev) as [Gi Gj]. specialize (H i j Gi Gj). now rewrite Ev in H.
    + intros i j Hi Hj. destruct (T i j Hi Hj) as (v & Ev). rewrite Ev. now apply H.
  - rewrite Hb'. split; intros (EM & EN & H); subst m n; repeat split; auto.
    + intros i j v Ev. destruct (G i j v Ev) as [Gi Gj]. specialize (H i j Gi Gj). now rewrite Ev in H.
    + intros i j Hi Hj. destruct (T i j Hi Hj) as (v & Ev). rewrite Ev. now apply H.
Qed.
Theorem equal_ragged (A : src2 V) L q : checked c = true -> In q L -> zlen q <> ncols L -> zlen L * ncols L <= amax c ->
  equal_list2 zero c (neqo eqb) A L = Fail (report c) /\ list_equal2 zero c (neqo eqb) L A = Fail (report c).
Proof.
  intros HC HQ HN HS. assert (ES : spec_list2 c L = Fail (report c)).
  { destruct L as [|r L]; [destruct HQ|]. cbn [ncols] in *. assert (G : forallb (fun q => zlen q =? zlen r) (r :: L) = false).
    { destruct (forallb _ (r :: L)) eqn:E; [|reflexivity]. rewrite forallb_forall in E. specialize (E q HQ). lia. }
    assert (ER : room2 c (zlen (r :: L)) (zlen r) (guard c ((0 <? zlen r) && forallb (fun q => zlen q =? zlen r) (r :: L)) (Ok (r :: L))) = Fail (report c)).
    { rewrite G, andb_false_r. unfold room2, room, guard. unfold cfg_ok in Hc. pose proof (zlen_nonneg (r :: L)). pose proof (zlen_nonneg r). unfold in_long. replace (_ && _) with true by (unfold LONG_MIN, LONG_MAX in *; nia). now replace (amax c <? zlen (r :: L) * zlen r) with false by lia. }
    destruct r as [|v r]; [destruct L as [|q' L]; [destruct HQ as [<-|[]]; lia|exact ER]|exact ER]. }
  pose proof (sim2_list zero c Hc L) as H. rewrite ES in H. cbn in H. unfold equal_list2, list_equal2. rewrite H by now left. now split.
Qed.
End LISTS.

(** ** Size in bytes *)
Notation rnd := (round radix2 (SpecFloat.fexp 53 1024) ZnearestE).
Notation val := (@B2R 53 1024).
Notation Hp := (eq_refl : Prec_gt_0 53).
Lemma bytes_thm n w : 0 <= n -> 0 < w -> n * w <= LONG_MAX -> bytes n w = Ok (n * w).
Proof. intros Hn Hw HB. unfold bytes, lmul, lret, in_long. now replace (_ && _) with true by (unfold LONG_MIN, LONG_MAX in *; nia). Qed.
Lemma double_cast z : 0 <= z <= LONG_MAX -> is_finite (nofZ D z) = true /\ val (nofZ D z) = rnd (IZR z).
Proof.
  intros Hz. apply (@cast_in 53 1024 eq_refl eq_refl). apply Rle_lt_trans with (bpow radix2 63); [|apply bpow_lt; lia]. apply abs_round_le_generic; try typeclasses eauto.
  - apply generic_format_bpow. cbn. lia.
  - rewrite Rabs_pos_eq by (apply IZR_le; lia). rewrite <- IZR_Zpower by lia. apply IZR_le. unfold LONG_MAX in Hz. cbn. lia.
Qed.
Lemma scale_down z k : 0 <= z <= LONG_MAX -> 0 <= k <= 30 ->
  is_finite (ndiv D (nofZ D z) (nofZ D (2 ^ k))) = true /\ val (ndiv D (nofZ D z) (nofZ D (2 ^ k))) = (rnd (IZR z) / IZR (2 ^ k))%R.
Proof.
  intros Hz Hk. destruct (double_cast z Hz) as [F1 V1]. assert (P2 : IZR (2 ^ k) = bpow radix2 k) by (rewrite <- IZR_Zpower by lia; reflexivity).
  destruct (@cast_small 53 1024 eq_refl eq_refl eq_refl (2 ^ k)) as [F2 V2]. { rewrite P2, Rabs_pos_eq by apply bpow_ge_0. apply bpow_le. lia. }
  assert (FX : generic_format radix2 (SpecFloat.fexp 53 1024) (rnd (IZR z) / IZR (2 ^ k))).
  { rewrite P2. unfold Rdiv. rewrite <- bpow_opp. destruct (Z.eq_dec z 0) as [->|NZ]. { rewrite round_0 by typeclasses eauto. rewrite Rmult_0_l. apply generic_format_0. }
    apply (mult_bpow_exact_FLT radix2 (3 - 1024 - 53) 53); [apply (generic_format_round radix2 (FLT_exp (3 - 1024 - 53) 53)); typeclasses eauto|].
    assert (1 <= mag radix2 (rnd (IZR z))); [|lia]. apply mag_ge_bpow. change (bpow radix2 (1 - 1)) with 1%R. rewrite Rabs_pos_eq; [apply round_ge_generic; try typeclasses eauto; [change 1%R with (bpow radix2 0); apply generic_format_bpow; cbn; lia|apply IZR_le; lia]|]. apply round_ge_generic; try typeclasses eauto; [apply generic_format_0|apply IZR_le; lia]. }
  assert (V2' : val (nofZ D (2 ^ k)) = IZR (2 ^ k)) by exact V2. clear F2 V2. set (y := nofZ D (2 ^ k)) in *. set (x := nofZ D z) in *. clearbody x y.
  assert (VP : val y <> 0%R) by (rewrite V2', P2; apply Rgt_not_eq, bpow_gt_0).
  pose proof (Bdiv_correct 53 1024 eq_refl eq_refl mode_NE x y VP) as H. cbn [round_mode] in H. change (Bdiv mode_NE x y) with (ndiv D x y) in H. rewrite V1, V2' in H.
  rewrite (round_generic radix2 (SpecFloat.fexp 53 1024) ZnearestE _ FX) in H. rewrite Rlt_bool_true in H.
  - destruct H as (H1 & H2 & _). split; [now rewrite <- F1, <- H2|exact H1].
  - apply Rle_lt_trans with (Rabs (rnd (IZR z))); [|rewrite <- V1; apply abs_B2R_lt_emax]. unfold Rdiv. rewrite Rabs_mult, P2. rewrite (Rabs_pos_eq (/ _)) by (left; apply Rinv_0_lt_compat, bpow_gt_0). rewrite <- (Rmult_1_r (Rabs (rnd (IZR z)))) at 2. apply Rmult_le_compat_l; [apply Rabs_pos|]. rewrite <- bpow_opp. change 1%R with (bpow radix2 0). apply bpow_le. lia.
Qed.
Theorem size_thm n w : 0 <= n -> 0 < w -> n * w <= LONG_MAX -> bytes n w = Ok (n * w) /\ exists k m g, kbytes n w = Ok k /\ mbytes n w = Ok m /\ gbytes n w = Ok g /\
  is_finite k = true /\ is_finite m = true /\ is_finite g = true /\
  val k = (rnd (IZR (n * w)) / 1024)%R /\ val m = (rnd (IZR (n * w)) / (1024 * 1024))%R /\ val g = (rnd (IZR (n * w)) / (1024 * 1024 * 1024))%R /\
  (n * w <= 2 ^ 53 -> rnd (IZR (n * w)) = IZR (n * w)).
Proof.
  intros Hn Hw HB. pose proof (bytes_thm n w Hn Hw HB) as E. split; [exact E|]. unfold kbytes, mbytes, gbytes. rewrite E. assert (Hz : 0 <= n * w <= LONG_MAX) by nia. revert Hz. generalize (n * w). intros z Hz. cbn [bind].
  assert (squares I64 1024 = Ok (2 ^ 20)) as -> by reflexivity. assert (cubes I64 1024 = Ok (2 ^ 30)) as -> by reflexivity. cbn [bind]. do 3 eexists. split; [reflexivity|]. split; [reflexivity|]. split; [reflexivity|].
  destruct (scale_down z 10 Hz ltac:(lia)) as [F1 V1]. destruct (scale_down z 20 Hz ltac:(lia)) as [F2 V2]. destruct (scale_down z 30 Hz ltac:(lia)) as [F3 V3].
  split; [exact F1|]. split; [exact F2|]. split; [exact F3|]. split; [exact V1|]. split; [rewrite V2; f_equal; rewrite <- mult_IZR; reflexivity|]. split; [rewrite V3; f_equal; rewrite <- !mult_IZR; reflexivity|].
  intros HS. apply round_generic; [typeclasses eauto|]. apply (@int_format 53 1024 eq_refl eq_refl eq_refl). rewrite Rabs_pos_eq by (apply IZR_le; lia). rewrite <- IZR_Zpower by lia. now apply IZR_le.
Qed.
