(** Evaluating expressions into arrays; equality; sequences; transposition. *)
From Verif Require Import Base.Outcome Base.ZList Model.IntModel Model.ScalarOps Model.Index Model.Slice Model.Array1D Model.Array2D Model.View2D Model.Expr.
From Verif Require Import Spec.ArraySpec Spec.SliceSpec Spec.MatrixSpec Spec.Matrix2Spec Spec.View2DSpec Spec.ExprSpec.
From Verif Require Import Proofs.Array1DProofs Proofs.MatrixProofs Proofs.Array2DProofs Proofs.View2DProofs Proofs.View2DOps Proofs.View2DThms Proofs.ExprProofs Proofs.ExprThms Proofs.ExprTree.
Ltac Zify.zify_post_hook ::= Z.div_mod_to_equations.

(** ** Element-wise loops over a buffer *)
Definition mlift {S} (g : S -> S) (m : mut S) : mut S := mbind m (fun s => MOk (g s)) g.
Definition outcome_of {S} (m : mut S) : outcome S := match m with MOk s => Ok s | MFail f _ => Fail f | MUB => UB end.
Fixpoint mapi {U V} (h : U -> Z -> outcome V) (i : Z) (l : list U) : list (outcome V) :=
  match l with [] => [] | x :: l' => h x i :: mapi h (i + 1) l' end.
Lemma zlen_mapi {U V} (h : U -> Z -> outcome V) l : forall i, zlen (mapi h i l) = zlen l.
Proof. induction l as [|x l IH]; intros i; [reflexivity|]. cbn [mapi]. now rewrite !zlen_cons, IH. Qed.
Lemma elt_mapi {U V} (h : U -> Z -> outcome V) l : forall i j x, znth l j = Some x -> elt (mapi h i l) j = h x (i + j).
Proof.
  induction l as [|y l IH]; intros i j x E; [rewrite znth_nil in E; discriminate|]. pose proof (znth_lt _ _ _ E) as HJ. rewrite zlen_cons in HJ. unfold elt in *. cbn [mapi].
  destruct (Z.eq_dec j 0) as [->|].
  - rewrite znth_cons_0 in *. injection E as ->. f_equal. lia.
  - rewrite znth_cons_pos in E by lia. rewrite znth_cons_pos by lia. rewrite (IH (i + 1) (j - 1) x E). f_equal. lia.
Qed.
Lemma zupd_mid {V} (pre : list V) x y rest : zupd (pre ++ x :: rest) (zlen pre) y = pre ++ y :: rest.
Proof. rewrite zupd_app_r by lia. rewrite Z.sub_diag. reflexivity. Qed.
Lemma oset_mid {V} (pre : list V) x y rest : oset (pre ++ x :: rest) (zlen pre) y = Ok (pre ++ y :: rest).
Proof.
  pose proof (zlen_nonneg pre). pose proof (zlen_nonneg rest). rewrite oset_ok by (rewrite zlen_app, zlen_cons; lia). now rewrite zupd_mid.
Qed.
Lemma oget_mid {V} (pre : list V) x rest : oget (pre ++ x :: rest) (zlen pre) = Ok x.
Proof. apply oget_ok. rewrite znth_app_r by lia. now rewrite Z.sub_diag, znth_cons_0. Qed.
Lemma fill_mut {V} (f : list V -> Z -> outcome V) (h : V -> Z -> outcome V) :
  (forall pre x rest, f (pre ++ x :: rest) (zlen pre) = h x (zlen pre)) ->
  forall rest pre, mfor_loop (length rest) (zlen pre) (fun i b => commit b (v <- f b i ;; oset b i v)) (pre ++ rest)
                   = mlift (app pre) (overwrite (mapi h (zlen pre) rest) rest).
Proof.
  intros Hf. induction rest as [|x rest IH]; intros pre; [cbn; now rewrite app_nil_r|]. cbn [length mfor_loop mapi overwrite]. rewrite Hf.
  destruct (h x (zlen pre)) as [v| |]; cbn [bind]; [|reflexivity|reflexivity]. rewrite oset_mid. cbn [commit mseq mbind].
  specialize (IH (pre ++ [v])). rewrite zlen_app, zlen_cons in IH. change (zlen (@nil V)) with 0 in IH. replace (zlen pre + (1 + 0)) with (zlen pre + 1) in IH by lia.
  rewrite <- app_assoc in IH. cbn [app] in IH. rewrite IH. unfold mlift. destruct (overwrite _ rest); cbn [mbind]; now rewrite <- ?app_assoc.
Qed.
Lemma fill_out {V} (f : list V -> Z -> outcome V) (h : V -> Z -> outcome V) :
  (forall pre x rest, f (pre ++ x :: rest) (zlen pre) = h x (zlen pre)) ->
  forall rest pre, for_loop (length rest) (zlen pre) (fun i b => v <- f b i ;; oset b i v) (pre ++ rest)
                   = (vs <- seqo (mapi h (zlen pre) rest) ;; Ok (pre ++ vs)).
Proof.
  intros Hf. induction rest as [|x rest IH]; intros pre; [cbn; now rewrite app_nil_r|]. cbn [length for_loop mapi seqo]. rewrite Hf.
  destruct (h x (zlen pre)) as [v| |]; cbn [bind]; [|reflexivity|reflexivity]. rewrite oset_mid. cbn [bind].
  specialize (IH (pre ++ [v])). rewrite zlen_app, zlen_cons in IH. change (zlen (@nil V)) with 0 in IH. replace (zlen pre + (1 + 0)) with (zlen pre + 1) in IH by lia.
  rewrite <- app_assoc in IH. cbn [app] in IH. rewrite IH. destruct (seqo _); cbn [bind]; now rewrite <- ?app_assoc.
Qed.
Lemma overwrite_seqo {V} l : forall old : list V, length l = length old -> outcome_of (overwrite l old) = seqo l.
Proof.
  induction l as [|v l IH]; intros [|o old] HL; try discriminate; [reflexivity|]. cbn [overwrite seqo]. destruct v; cbn [bind]; try reflexivity.
  injection HL as HL. rewrite <- (IH old HL). destruct (overwrite l old); reflexivity.
Qed.
Lemma overwrite_ok {V} l : forall (old vs : list V), length l = length old -> seqo l = Ok vs -> overwrite l old = MOk vs.
Proof.
  induction l as [|v l IH]; intros [|o old] vs HL; try discriminate; [cbn; congruence|]. cbn [overwrite seqo]. destruct v; cbn [bind]; try discriminate.
  injection HL as HL. destruct (seqo l) as [ws| |] eqn:E; cbn [bind]; try discriminate. intros [= <-]. rewrite (IH old ws); auto.
Qed.
Lemma seqo_map {V} (l : list V) : seqo (map Ok l) = Ok l.
Proof. induction l as [|x l IH]; [reflexivity|]. cbn. now rewrite IH. Qed.
Lemma seqo_len {V} (l : list (outcome V)) : forall vs, seqo l = Ok vs -> zlen vs = zlen l.
Proof.
  induction l as [|v l IH]; cbn [seqo]; intros vs E; [injection E as <-; reflexivity|]. destruct v; cbn in E; try discriminate. destruct (seqo l) eqn:E1; cbn in E; try discriminate. injection E as <-. rewrite !zlen_cons, (IH _ eq_refl). reflexivity.
Qed.
(** Which outcome sequential evaluation has: that of the first element that is not a value. *)
Lemma seqo_spec {V} (l : list (outcome V)) :
  match seqo l with
  | Ok vs => l = map Ok vs
  | Fail f => exists vs r, l = map Ok vs ++ Fail f :: r
  | UB => exists vs r, l = map Ok vs ++ UB :: r
  end.
Proof.
  induction l as [|v l IH]; [reflexivity|]. cbn [seqo]. destruct v as [x|f|]; cbn [bind].
  - destruct (seqo l); cbn [bind].
    + cbn. now rewrite IH.
    + destruct IH as (vs & r & ->). exists (x :: vs), r. reflexivity.
    + destruct IH as (vs & r & ->). exists (x :: vs), r. reflexivity.
  - exists [], l. reflexivity.
  - exists [], l. reflexivity.
Qed.
Lemma overwrite_spec {V} (vs : list V) f r : forall old, length old = length (map Ok vs ++ Fail f :: r) ->
  overwrite (map Ok vs ++ Fail f :: r) old = MFail f (vs ++ skipn (length vs) old).
Proof.
  induction vs as [|x vs IH]; intros [|o old] HL; try discriminate HL; [reflexivity|]. cbn [map app overwrite]. rewrite IH by (injection HL; auto). reflexivity.
Qed.

(** ** eval, construction, assignment *)
Section E1.
Context {V : Type} (zero : V) (c : cfg).
Lemma mapi_src (A : src1 V) l (old : list V) : yields A l -> zlen old = zlen l -> mapi (fun _ i => sun A i) 0 old = l.
Proof.
  intros (E & HL & HU) HO. apply list_ext_elt; rewrite zlen_mapi; [assumption|]. intros i Hi. destruct (znth_some old i Hi) as [x Ex]. rewrite (elt_mapi _ _ _ _ _ Ex). rewrite Z.add_0_l. apply HU. lia.
Qed.
Lemma assign_src (A : src1 V) l a old : yields A l -> rep a old -> zlen old = zlen l ->
  arr_assign c A a = mbind (overwrite l old) (fun b => MOk (mkarr b (zlen l))) (fun b => mkarr b (zlen l)).
Proof.
  intros HA (EB & EN) HO. pose proof HA as (E & _). unfold arr_assign, arr_assign_rd. rewrite E, EN. replace (zlen old =? zlen l) with true by lia. rewrite check_debug_true.
  unfold with_buf, assign_loop, mfor. rewrite EB, EN. replace (Z.to_nat (zlen l - 0)) with (length old) by (unfold zlen in *; lia).
  pose proof (fill_mut (fun _ => sun A) (fun _ i => sun A i) (fun _ _ _ => eq_refl) old []) as F. cbn [app] in F. change (zlen (@nil V)) with 0 in F. rewrite F.
  rewrite (mapi_src A l old HA HO), HO. unfold mlift. destruct (overwrite l old); reflexivity.
Qed.
Lemma assign_mismatch (A : src1 V) l a old : yields A l -> rep a old -> zlen old <> zlen l -> checked c = true -> arr_assign c A a = MFail (report c) a.
Proof.
  intros (E & _) (EB & EN) HO HC. unfold arr_assign, arr_assign_rd. rewrite E, EN. replace (zlen old =? zlen l) with false by lia. now rewrite check_debug_false.
Qed.
Lemma eval_src (A : src1 V) l : yields A l -> zlen l <= amax c -> x_eval1 c zero A = (vs <- seqo l ;; Ok (mkarr vs (zlen l))).
Proof.
  intros HA HL. unfold x_eval1. pose proof (zlen_nonneg l). rewrite (proj1 HA), arr_new_ok by lia. cbn [bind].
  rewrite (assign_src A l _ (repeat zero (Z.to_nat (zlen l)))); [|assumption|split; [reflexivity|cbn; now rewrite zlen_repeat]|now apply zlen_repeat].
  rewrite <- (overwrite_seqo l (repeat zero (Z.to_nat (zlen l)))) by (rewrite repeat_length; unfold zlen; lia). destruct (overwrite l _); reflexivity.
Qed.
Lemma of_src (A : src1 V) l : yields A l -> zlen l <= amax c -> arr_of_src zero c A = (vs <- seqo l ;; Ok (mkarr vs (zlen l))).
Proof.
  intros HA HL. unfold arr_of_src. pose proof (zlen_nonneg l). rewrite (proj1 HA), arr_new_ok by lia. cbn [bind buf an]. unfold copy, for_. rewrite (proj1 HA).
  pose proof (fill_out (fun _ => sun A) (fun _ i => sun A i) (fun _ _ _ => eq_refl) (repeat zero (Z.to_nat (zlen l))) []) as F. cbn [app] in F. change (zlen (@nil V)) with 0 in F.
  rewrite repeat_length in F. replace (Z.to_nat (zlen l - 0)) with (Z.to_nat (zlen l)) by lia. rewrite F, (mapi_src A l) by (auto; now apply zlen_repeat). now destruct (seqo l).
Qed.
Lemma too_big (A : src1 V) l : yields A l -> 0 <= amax c < zlen l -> x_eval1 c zero A = Fail BadAlloc /\ arr_of_src zero c A = Fail BadAlloc.
Proof. intros HA HL. unfold x_eval1, arr_of_src. rewrite (proj1 HA), arr_new_big by lia. auto. Qed.
End E1.

(** ** Two dimensions: the nested loops visit the elements in row-major order *)
Lemma for_loop_add {S} a b i (body : Z -> S -> outcome S) s : for_loop (a + b) i body s = (s' <- for_loop a i body s ;; for_loop b (i + Z.of_nat a) body s').
Proof.
  revert i s. induction a as [|a IH]; intros i s; [cbn; f_equal; lia|]. cbn [Nat.add for_loop]. destruct (body i s); cbn [bind]; try reflexivity. rewrite IH. destruct (for_loop a (i + 1) body a0); cbn [bind]; try reflexivity. f_equal. lia.
Qed.
Lemma mfor_loop_add {S} a b i (body : Z -> S -> mut S) s : mfor_loop (a + b) i body s = mseq (mfor_loop a i body s) (mfor_loop b (i + Z.of_nat a) body).
Proof.
  revert i s. induction a as [|a IH]; intros i s; [cbn; f_equal; lia|]. cbn [Nat.add mfor_loop]. destruct (body i s); cbn [mseq mbind]; try reflexivity. rewrite IH. replace (i + 1 + Z.of_nat a) with (i + Z.of_nat (Datatypes.S a)) by lia. reflexivity.
Qed.
Lemma mfor_loop_ext {S} k lo (b1 b2 : Z -> S -> mut S) s : (forall i s, lo <= i < lo + Z.of_nat k -> b1 i s = b2 i s) -> mfor_loop k lo b1 s = mfor_loop k lo b2 s.
Proof.
  revert lo s. induction k as [|k IH]; intros lo s H; [reflexivity|]. cbn [mfor_loop]. rewrite H by lia. destruct (b2 lo s); cbn [mseq mbind]; try reflexivity. apply IH. intros. apply H. lia.
Qed.
Lemma for_loop_shift {S} k i d (body : Z -> S -> outcome S) s : for_loop k (i + d) body s = for_loop k i (fun j => body (j + d)) s.
Proof. revert i s. induction k as [|k IH]; intros i s; [reflexivity|]. cbn [for_loop]. destruct (body (i + d) s); cbn [bind]; try reflexivity. replace (i + d + 1) with (i + 1 + d) by lia. apply IH. Qed.
Lemma mfor_loop_shift {S} k i d (body : Z -> S -> mut S) s : mfor_loop k (i + d) body s = mfor_loop k i (fun j => body (j + d)) s.
Proof. revert i s. induction k as [|k IH]; intros i s; [reflexivity|]. cbn [mfor_loop]. destruct (body (i + d) s); cbn [mseq mbind]; try reflexivity. replace (i + d + 1) with (i + 1 + d) by lia. apply IH. Qed.
Lemma for_nest {S} m n (b2 : Z -> Z -> S -> outcome S) (b1 : Z -> S -> outcome S) s : 0 <= m -> 0 <= n ->
  (forall i j s, 0 <= i < m -> 0 <= j < n -> b2 i j s = b1 (i * n + j) s) ->
  for_ 0 m (fun i s => for_ 0 n (b2 i) s) s = for_ 0 (m * n) b1 s.
Proof.
  intros Hm Hn HB. unfold for_. replace (Z.to_nat (m * n - 0)) with (Z.to_nat m * Z.to_nat n)%nat by (rewrite Z.sub_0_r, Z2Nat.inj_mul; lia).
  replace (Z.to_nat (m - 0)) with (Z.to_nat m) by lia. replace (Z.to_nat (n - 0)) with (Z.to_nat n) by lia.
  enough (forall k i t, 0 <= i -> i + Z.of_nat k <= m -> for_loop k i (fun i s => for_loop (Z.to_nat n) 0 (b2 i) s) t = for_loop (k * Z.to_nat n) (i * n) b1 t) as G by (apply (G (Z.to_nat m) 0 s); lia).
  induction k as [|k IH]; intros i t Hi Hk; [reflexivity|]. cbn [for_loop Nat.mul]. rewrite for_loop_add.
  assert (for_loop (Z.to_nat n) 0 (b2 i) t = for_loop (Z.to_nat n) (i * n) b1 t) as ->.
  { replace (i * n) with (0 + i * n) by lia. rewrite for_loop_shift. apply for_loop_ext. intros j u Hj. rewrite HB by lia. f_equal. lia. }
  destruct (for_loop (Z.to_nat n) (i * n) b1 t); cbn [bind]; try reflexivity. rewrite IH by lia. f_equal. nia.
Qed.
Lemma mfor_nest {S} m n (b2 : Z -> Z -> S -> mut S) (b1 : Z -> S -> mut S) s : 0 <= m -> 0 <= n ->
  (forall i j s, 0 <= i < m -> 0 <= j < n -> b2 i j s = b1 (i * n + j) s) ->
  mfor 0 m (fun i s => mfor 0 n (b2 i) s) s = mfor 0 (m * n) b1 s.
Proof.
  intros Hm Hn HB. unfold mfor. replace (Z.to_nat (m * n - 0)) with (Z.to_nat m * Z.to_nat n)%nat by (rewrite Z.sub_0_r, Z2Nat.inj_mul; lia).
  replace (Z.to_nat (m - 0)) with (Z.to_nat m) by lia. replace (Z.to_nat (n - 0)) with (Z.to_nat n) by lia.
  enough (forall k i t, 0 <= i -> i + Z.of_nat k <= m -> mfor_loop k i (fun i s => mfor_loop (Z.to_nat n) 0 (b2 i) s) t = mfor_loop (k * Z.to_nat n) (i * n) b1 t) as G by (apply (G (Z.to_nat m) 0 s); lia).
  induction k as [|k IH]; intros i t Hi Hk; [reflexivity|]. cbn [mfor_loop Nat.mul]. rewrite mfor_loop_add.
  assert (mfor_loop (Z.to_nat n) 0 (b2 i) t = mfor_loop (Z.to_nat n) (i * n) b1 t) as ->.
  { replace (i * n) with (0 + i * n) by lia. rewrite mfor_loop_shift. apply mfor_loop_ext. intros j u Hj. rewrite HB by lia. f_equal. lia. }
  destruct (mfor_loop (Z.to_nat n) (i * n) b1 t); cbn [mseq mbind]; try reflexivity. rewrite IH by lia. f_equal. nia.
Qed.
Section E2.
Context {V : Type} (zero : V) (c : cfg).
Lemma zlen_mlist {W} (M : mx W) : 0 <= mr M -> 0 <= mc M -> zlen (mlist M) = mr M * mc M.
Proof. intros. unfold mlist. rewrite zlen_map, zlen_zseq. nia. Qed.
Lemma lin_fill (A : src2 V) M (rd : list V -> Z -> Z -> outcome V) i j b : sized M -> (forall i j, 0 <= i < mr M -> 0 <= j < mc M -> rd b i j = mel M i j) ->
  0 <= i < mr M -> 0 <= j < mc M ->
  (v <- rd b i j ;; set2 (mc M) b i j v) = (v <- mlin M (i * mc M + j) ;; oset b (i * mc M + j) v).
Proof.
  intros (B1 & B2 & B3) HR Hi Hj. rewrite HR, mlin_at by lia. destruct (mel M i j); cbn [bind]; try reflexivity. unfold set2.
  pose proof (addr_max _ _ i j Hi Hj B3). rewrite lmul_ok by (unfold LONG_MIN; lia). cbn [bind]. now rewrite ladd_ok by (unfold LONG_MIN; lia).
Qed.
Lemma mapi_lin (M : mx V) (old : list V) : 0 <= mr M -> 0 <= mc M -> zlen old = mr M * mc M -> mapi (fun _ i => mlin M i) 0 old = mlist M.
Proof.
  intros H1 H2 HO. apply list_ext_elt; rewrite zlen_mapi; [now rewrite zlen_mlist|]. intros i Hi. destruct (znth_some old i Hi) as [x Ex]. rewrite (elt_mapi _ _ _ _ _ Ex).
  unfold mlist. rewrite elt_gen by lia. f_equal.
Qed.
Lemma of_src2 (A : src2 V) M : yields2 A M -> plump M -> mr M * mc M <= amax c ->
  arr2_of_src zero c A = (vs <- seqo (mlist M) ;; Ok (mkarr2 (mr M) (mc M) (mkarr vs (mr M * mc M)))).
Proof.
  intros HA HP HL. pose proof HA as (E1 & E2 & B1 & B2 & E3 & B3 & HU & _). assert (0 <= mr M * mc M) by nia. unfold arr2_of_src, arr2_new. rewrite E1, E2, lmul_ok by (unfold LONG_MIN; lia). cbn [bind].
  rewrite arr_new_ok by lia. cbn [bind]. replace (0 <=? mr M) with true by lia. replace (0 <=? mc M) with true by lia. rewrite (proj2 (semi_valid_spec _ _) HP). rewrite !check_debug_true. cbn [bind dcols dat buf an drows].
  unfold copy2. rewrite E1, E2. rewrite (for_nest (mr M) (mc M) _ (fun k b => v <- mlin M k ;; oset b k v)); try lia.
  2:{ intros i j s Hi Hj. apply (lin_fill A M (fun _ => s2un A)); auto. repeat split; lia. }
  unfold for_. set (old := repeat zero (Z.to_nat (mr M * mc M))).
  pose proof (fill_out (fun _ => mlin M) (fun _ i => mlin M i) (fun _ _ _ => eq_refl) old []) as F. cbn [app] in F. change (zlen (@nil V)) with 0 in F.
  replace (Z.to_nat (mr M * mc M - 0)) with (length old) by (unfold old; rewrite repeat_length; f_equal; lia). rewrite F, mapi_lin; try lia; [|unfold old; now rewrite zlen_repeat]. now destruct (seqo (mlist M)).
Qed.
Lemma assign_src2 (A : src2 V) M a old : yields2 A M -> drows a = mr M -> dcols a = mc M -> rep (dat a) old -> zlen old = mr M * mc M ->
  arr2_assign c A a = mbind (overwrite (mlist M) old) (fun b => MOk (mkarr2 (mr M) (mc M) (mkarr b (mr M * mc M)))) (fun b => mkarr2 (mr M) (mc M) (mkarr b (mr M * mc M))).
Proof.
  intros HA ER EC (EB & EN) HO. pose proof HA as (E1 & E2 & B1 & B2 & E3 & B3 & HU & _). assert (0 <= mr M * mc M) by nia. unfold arr2_assign, arr2_assign_rd. rewrite E1, E2, ER, EC, EB, EN, HO. unfold same_size2. rewrite !Z.eqb_refl. cbn [andb]. rewrite check_debug_true.
  rewrite (mfor_nest (mr M) (mc M) _ (fun k b => commit b (v <- mlin M k ;; oset b k v))); try lia.
  2:{ intros i j s Hi Hj. f_equal. apply (lin_fill A M (fun _ => s2un A)); auto. repeat split; lia. }
  unfold mfor. replace (Z.to_nat (mr M * mc M - 0)) with (length old) by (unfold zlen in *; lia).
  pose proof (fill_mut (fun _ => mlin M) (fun _ i => mlin M i) (fun _ _ _ => eq_refl) old []) as F. cbn [app] in F. change (zlen (@nil V)) with 0 in F. rewrite F, mapi_lin; try lia.
  unfold mlift. destruct (overwrite (mlist M) old); reflexivity.
Qed.
Lemma eval_src2 (A : src2 V) M : yields2 A M -> plump M -> mr M * mc M <= amax c ->
  x_eval2 c zero A = (vs <- seqo (mlist M) ;; Ok (mkarr2 (mr M) (mc M) (mkarr vs (mr M * mc M)))).
Proof.
  intros HA HP HL. pose proof HA as (E1 & E2 & B1 & B2 & E3 & B3 & HU & _). assert (0 <= mr M * mc M) by nia. unfold x_eval2, arr2_new. rewrite E1, E2, lmul_ok by (unfold LONG_MIN; lia). cbn [bind].
  rewrite arr_new_ok by lia. cbn [bind]. replace (0 <=? mr M) with true by lia. replace (0 <=? mc M) with true by lia. rewrite (proj2 (semi_valid_spec _ _) HP). rewrite !check_debug_true. cbn [bind].
  rewrite (assign_src2 A M _ (repeat zero (Z.to_nat (mr M * mc M)))); auto; [|split; [reflexivity|cbn; now rewrite zlen_repeat]|now apply zlen_repeat].
  rewrite <- (overwrite_seqo (mlist M) (repeat zero (Z.to_nat (mr M * mc M)))). 2:{ unfold mlist. now rewrite repeat_length, map_length, zseq_length. }
  destruct (overwrite (mlist M) _); reflexivity.
Qed.
End E2.
