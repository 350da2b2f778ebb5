(** The array norms over the real numbers. *)
From Coq Require Import Reals Lra.
From Verif Require Import Base.Outcome Base.ZList Model.Index Model.Slice Model.Array1D Model.Array2D Model.View2D Model.Expr Model.Reduce.
From Verif Require Import Spec.ArraySpec Spec.SliceSpec Spec.MatrixSpec Spec.Matrix2Spec Spec.View2DSpec Spec.ExprSpec Spec.ReduceSpec Spec.NormSpec.
From Verif Require Import Proofs.ExprProofs Proofs.ExprThms Proofs.ReduceProofs Proofs.ReduceThms.
Local Open Scope Z_scope.
Lemma R_ring : ring_theory 0%R 1%R Rplus Rmult Rminus Ropp eq.
Proof. constructor; intros; ring. Qed.
Lemma norm1_ok A l : yields A (map Ok l) -> r_norm1 radd Rabs 0%R A 0%R = Ok (norm1 l).
Proof.
  intros HA. pose proof HA as (E & _). rewrite zlen_map in E. unfold r_norm1. rewrite E. destruct (Z.eqb_spec (zlen l) 0) as [E0|E0].
  - destruct l; [reflexivity|]. rewrite zlen_cons in E0. pose proof (zlen_nonneg l). lia.
  - apply (sum_ok 0%R 1%R Rplus Rmult Rminus Ropp R_ring). pose proof (un_ok (fun x => Ok (Rabs x)) A _ HA) as H. rewrite map_map in H. rewrite map_map. exact H.
Qed.
Lemma norm2_ok c A l : yields A (map Ok l) -> r_norm2 c radd rmul sqrt 0%R A 0%R = Ok (norm2 l).
Proof.
  intros HA. pose proof HA as (E & _). rewrite zlen_map in E. unfold r_norm2. rewrite E. destruct (Z.eqb_spec (zlen l) 0) as [E0|E0].
  - destruct l; [|rewrite zlen_cons in E0; pose proof (zlen_nonneg l); lia]. unfold norm2, rsum, total. cbn. now rewrite sqrt_0.
  - unfold radd, rmul. rewrite (dot_ok 0%R 1%R Rplus Rmult Rminus Ropp R_ring c A A l l HA HA eq_refl). cbn [bind]. unfold norm2, rsum. do 3 f_equal. clear. induction l; cbn; congruence.
Qed.
Lemma norminf_ok A l : yields A (map Ok l) -> r_norm_inf Rgtb Rabs 0%R A 0%R = Ok (norminf l).
Proof.
  intros HA. pose proof HA as (E & _). rewrite zlen_map in E. unfold r_norm_inf. rewrite E. destruct (Z.eqb_spec (zlen l) 0) as [E0|E0].
  - destruct l; [reflexivity|]. rewrite zlen_cons in E0. pose proof (zlen_nonneg l). lia.
  - unfold r_max. pose proof (un_ok (fun x => Ok (Rabs x)) A _ HA) as H. rewrite (fold_ok _ _ _ 0%R H). destruct l as [|x l]; [cbn in E0; lia|]. cbn [map bind]. rewrite map_map. cbn [bind].
    replace (map (fun x0 => Ok (Rabs x0)) l) with (map Ok (map Rabs l)) by now rewrite map_map. rewrite foldo_pure. f_equal. unfold norminf. cbn [map fold_right]. 
    assert (forall k s, (0 <= s)%R -> fold_left (fun m x => maxs Rgtb x m) k s = Rmax s (fold_right Rmax 0%R k)) as HG.
    { induction k as [|y k IH]; intros s Hs; cbn [fold_left fold_right]; [now rewrite Rmax_left|]. unfold maxs at 2, Rgtb. destruct (Rgt_dec y s).
      - rewrite IH by lra. rewrite Rmax_assoc. f_equal. symmetry. apply Rmax_right. lra.
      - rewrite IH by lra. rewrite Rmax_assoc. f_equal. symmetry. apply Rmax_left. lra. }
    apply HG. apply Rabs_pos.
Qed.
Local Open Scope R_scope.
Lemma rsum_nonneg l : Forall (fun x => 0 <= x) l -> 0 <= rsum l.
Proof. unfold rsum, total. induction 1; cbn; lra. Qed.
Lemma rsum_zero l : Forall (fun x => 0 <= x) l -> rsum l = 0 -> Forall (fun x => x = 0) l.
Proof. unfold rsum, total. induction 1 as [|x l Hx HF IH]; cbn; intros H; constructor; pose proof (rsum_nonneg l HF) as HN; unfold rsum, total in HN; [lra|apply IH; lra]. Qed.
Lemma rsum_le (f g : R -> R) l : (forall x, f x <= g x) -> rsum (map f l) <= rsum (map g l).
Proof. intros H. unfold rsum, total. induction l as [|x l IH]; cbn; [lra|]. specialize (H x). lra. Qed.
Lemma abs_all_nonneg l : Forall (fun x => 0 <= x) (map Rabs l).
Proof. apply Forall_forall. intros x Hx. apply in_map_iff in Hx. destruct Hx as (y & <- & _). apply Rabs_pos. Qed.
Lemma sq_all_nonneg l : Forall (fun x => 0 <= x) (map (fun x => x * x) l).
Proof. apply Forall_forall. intros x Hx. apply in_map_iff in Hx. destruct Hx as (y & <- & _). nra. Qed.
(** norm1 *)
Lemma norm1_pos l : 0 <= norm1 l.
Proof. apply rsum_nonneg, abs_all_nonneg. Qed.
Lemma norm1_def l : norm1 l = 0 <-> Forall (fun x => x = 0) l.
Proof.
  split.
  - intros H. apply rsum_zero in H; [|apply abs_all_nonneg]. rewrite Forall_forall in *. intros x Hx. specialize (H (Rabs x) (in_map _ _ _ Hx)). destruct (Req_dec x 0); [assumption|]. apply Rabs_no_R0 in H0. contradiction.
  - induction 1 as [|x l -> HF IH]; [reflexivity|]. unfold norm1, rsum, total in *. cbn. rewrite IH, Rabs_R0. lra.
Qed.
Lemma norm1_scale a l : norm1 (scale a l) = Rabs a * norm1 l.
Proof. unfold norm1, rsum, total, scale. induction l as [|x l IH]; cbn; [lra|]. rewrite IH, Rabs_mult. lra. Qed.
Lemma norm1_triangle l : forall k, length l = length k -> norm1 (vadd l k) <= norm1 l + norm1 k.
Proof.
  unfold norm1, rsum, total, vadd. induction l as [|x l IH]; intros [|y k] H; cbn in *; try discriminate; [lra|]. specialize (IH k ltac:(congruence)). pose proof (Rabs_triang x y). lra.
Qed.
(** norminf *)
Lemma norminf_pos l : 0 <= norminf l.
Proof. unfold norminf. induction l as [|x l IH]; cbn; [lra|]. eapply Rle_trans; [exact IH|]. apply Rmax_r. Qed.
Lemma norminf_bound l b : 0 <= b -> (norminf l <= b <-> forall x, In x l -> Rabs x <= b).
Proof.
  intros Hb. unfold norminf. induction l as [|x l IH]; cbn; [split; [intros _ y []|lra]|]. split.
  - intros H y [->|Hy].
    + eapply Rle_trans; [apply Rmax_l|exact H].
    + apply IH; [|assumption]. eapply Rle_trans; [apply Rmax_r|exact H].
  - intros H. apply Rmax_lub; [apply H; now left|]. apply IH. intros y Hy. apply H. now right.
Qed.
Lemma norminf_attained l : l <> [] -> exists x, In x l /\ norminf l = Rabs x.
Proof.
  induction l as [|x l IH]; [congruence|]. intros _. unfold norminf. cbn [map fold_right]. change (fold_right Rmax 0 (map Rabs l)) with (norminf l). destruct l as [|y l].
  - exists x. split; [now left|]. apply Rmax_left. apply Rabs_pos.
  - destruct IH as (z & Hz & E); [discriminate|]. destruct (Rle_dec (Rabs x) (norminf (y :: l))).
    + exists z. split; [now right|]. now rewrite Rmax_right.
    + exists x. split; [now left|]. apply Rmax_left. lra.
Qed.
Lemma norminf_in l x : In x l -> Rabs x <= norminf l.
Proof. intros H. apply (proj1 (norminf_bound l (norminf l) (norminf_pos l))); [apply Rle_refl|assumption]. Qed.
Lemma norminf_def l : norminf l = 0 <-> Forall (fun x => x = 0) l.
Proof.
  rewrite Forall_forall. split.
  - intros H x Hx. pose proof (norminf_in l x Hx). pose proof (Rabs_pos x). destruct (Req_dec x 0); [assumption|]. apply Rabs_no_R0 in H2. lra.
  - intros H. apply Rle_antisym; [|apply norminf_pos]. apply norminf_bound; [lra|]. intros x Hx. rewrite (H x Hx), Rabs_R0. lra.
Qed.
Lemma norminf_scale a l : norminf (scale a l) = Rabs a * norminf l.
Proof. unfold norminf, scale. induction l as [|x l IH]; cbn; [lra|]. rewrite IH, Rabs_mult. apply RmaxRmult. apply Rabs_pos. Qed.
Lemma norminf_triangle l : forall k, length l = length k -> norminf (vadd l k) <= norminf l + norminf k.
Proof.
  unfold norminf, vadd. induction l as [|x l IH]; intros [|y k] H; cbn in *; try discriminate; [lra|]. specialize (IH k ltac:(congruence)). pose proof (Rabs_triang x y).
  set (a := fold_right Rmax 0 (map Rabs l)) in *. set (b := fold_right Rmax 0 (map Rabs k)) in *. pose proof (Rmax_l (Rabs x) a). pose proof (Rmax_r (Rabs x) a). pose proof (Rmax_l (Rabs y) b). pose proof (Rmax_r (Rabs y) b). apply Rmax_lub; lra.
Qed.
(** norm2 *)
Definition sq (l : list R) := rsum (map (fun x => x * x) l).
Definition dotr (l k : list R) := rsum (products Rmult l k).
Lemma sq_pos l : 0 <= sq l.
Proof. apply rsum_nonneg, sq_all_nonneg. Qed.
Lemma norm2_pos l : 0 <= norm2 l.
Proof. apply sqrt_pos. Qed.
Lemma sq_def l : sq l = 0 <-> Forall (fun x => x = 0) l.
Proof.
  split.
  - intros H. apply rsum_zero in H; [|apply sq_all_nonneg]. rewrite Forall_forall in *. intros x Hx. specialize (H (x * x) (in_map (fun x => x * x) _ _ Hx)). nra.
  - induction 1 as [|x l -> HF IH]; [reflexivity|]. unfold sq, rsum, total in *. cbn. rewrite IH. lra.
Qed.
Lemma norm2_def l : norm2 l = 0 <-> Forall (fun x => x = 0) l.
Proof.
  rewrite <- sq_def. unfold norm2. fold (sq l). split; intros H; [now apply sqrt_eq_0 in H; [|apply sq_pos]|]. rewrite H. apply sqrt_0.
Qed.
Lemma norm2_scale a l : norm2 (scale a l) = Rabs a * norm2 l.
Proof.
  unfold norm2. fold (sq (scale a l)) (sq l). replace (sq (scale a l)) with ((a * a) * sq l). 2:{ unfold sq, rsum, total, scale. induction l as [|x l IH]; cbn; [lra|]. rewrite <- IH. lra. }
  rewrite sqrt_mult; [|nra|apply sq_pos]. f_equal. fold (Rsqr a). apply sqrt_Rsqr_abs.
Qed.
Lemma cauchy l : forall k, length l = length k -> dotr l k * dotr l k <= sq l * sq k.
Proof.
  induction l as [|x l IH]; intros [|y k] H; try discriminate; [unfold dotr, sq, rsum, total; cbn; lra|]. specialize (IH k ltac:(cbn in H; congruence)).
  replace (dotr (x :: l) (y :: k)) with (x * y + dotr l k) by (unfold dotr, rsum, total; reflexivity). replace (sq (x :: l)) with (x * x + sq l) by (unfold sq, rsum, total; reflexivity). replace (sq (y :: k)) with (y * y + sq k) by (unfold sq, rsum, total; reflexivity).
  pose proof (sq_pos l) as HA. pose proof (sq_pos k) as HB. set (A := sq l) in *. set (B := sq k) in *. set (C := dotr l k) in *.
  enough (2 * x * y * C <= A * (y * y) + B * (x * x)) by nra.
  destruct (Req_dec A 0) as [E|E].
  - rewrite E in IH. assert (C = 0) as EC by nra. rewrite EC, E. nra.
  - assert (0 < A) by lra. assert (0 <= (A * y - C * x) * (A * y - C * x) + (A * B - C * C) * (x * x)) as HS. { assert (0 <= A * B - C * C) by lra. pose proof (Rle_0_sqr (A * y - C * x)). pose proof (Rle_0_sqr x). unfold Rsqr in *. pose proof (Rmult_le_pos _ _ H1 H3). lra. }
    apply Rmult_le_reg_l with A; [assumption|]. nra.
Qed.
Lemma norm2_triangle l k : length l = length k -> norm2 (vadd l k) <= norm2 l + norm2 k.
Proof.
  intros HL. unfold norm2. fold (sq (vadd l k)) (sq l) (sq k).
  assert (sq (vadd l k) = sq l + 2 * dotr l k + sq k) as ->.
  { clear -HL. revert k HL. unfold sq, dotr, rsum, total, vadd. induction l as [|x l IH]; intros [|y k] H; cbn in *; try discriminate; [lra|]. rewrite IH by congruence. ring. }
  pose proof (cauchy l k HL) as HC. pose proof (sq_pos l) as HA. pose proof (sq_pos k) as HB. pose proof (sqrt_pos (sq l)). pose proof (sqrt_pos (sq k)). pose proof (sqrt_sqrt _ HA). pose proof (sqrt_sqrt _ HB). set (a := sqrt (sq l)) in *. set (b := sqrt (sq k)) in *.
  rewrite <- (sqrt_square (a + b)) by lra. apply sqrt_le_1_alt. enough (dotr l k <= a * b) by nra.
  apply Rle_trans with (Rabs (dotr l k)); [apply Rle_abs|]. rewrite <- (Rabs_pos_eq (a * b)) by nra. apply Rsqr_le_abs_0. unfold Rsqr. nra.
Qed.
(** The three norms compared. *)
Lemma norm_order l : norminf l <= norm2 l <= norm1 l.
Proof.
  split.
  - apply norminf_bound; [apply norm2_pos|]. intros x Hx. unfold norm2. rewrite <- sqrt_Rsqr_abs. apply sqrt_le_1_alt. fold (sq l). unfold Rsqr. induction l as [|y l IH]; [destruct Hx|]. replace (sq (y :: l)) with (y * y + sq l) by reflexivity. destruct Hx as [->|Hx]; [pose proof (sq_pos l); lra|]. specialize (IH Hx). nra.
  - rewrite <- (sqrt_square (norm1 l)) by apply norm1_pos. apply sqrt_le_1_alt. fold (sq l). induction l as [|x l IH]; [unfold sq, norm1, rsum, total; cbn; lra|]. replace (sq (x :: l)) with (x * x + sq l) by reflexivity. replace (norm1 (x :: l)) with (Rabs x + norm1 l) by reflexivity. pose proof (norm1_pos l). pose proof (Rabs_pos x). assert (x * x = Rabs x * Rabs x) as -> by (rewrite <- Rabs_mult; symmetry; apply Rabs_pos_eq; nra). nra.
Qed.
Lemma rsum_pow_ok A l n : yields A (map Ok l) -> r_sum radd (x_un (fun x => Ok (Rabs x)) (x_un (fun x => Ok (x ^ n)) A)) 0 = Ok (rsum (map (fun x => Rabs x ^ n) l)).
Proof.
  intros HA. unfold radd, rsum. apply (sum_ok 0 1 Rplus Rmult Rminus Ropp R_ring). pose proof (un_ok (fun x => Ok (x ^ n)) A _ HA) as H. rewrite map_map in H. cbn [bind] in H.
  replace (map (fun x => Ok (x ^ n)) l) with (map Ok (map (fun x => x ^ n) l)) in H by now rewrite map_map. pose proof (un_ok (fun x => Ok (Rabs x)) _ _ H) as H'. rewrite !map_map in H'. cbn [bind] in H'.
  replace (map Ok (map (fun x => Rabs x ^ n) l)) with (map (fun x => Ok (Rabs (x ^ n))) l); [exact H'|]. rewrite map_map. apply map_ext. intros x. now rewrite RPow_abs.
Qed.
Lemma norm_lp_ok c A l p powr : yields A (map Ok l) -> l <> [] -> (0 < p)%Z ->
  r_norm_lp c radd (fun x y => Ok (x / y)) (fun i => Ok (IZR i)) 1 Rabs (fun x p => Ok (x ^ Z.to_nat p)) powr 0 A p 0 = Ok (powr (rsum (map (fun x => Rabs x ^ Z.to_nat p) l)) (1 / IZR p)).
Proof.
  intros HA HN Hp. pose proof HA as (E & _). rewrite zlen_map in E. unfold r_norm_lp. replace (0 <? p)%Z with true by lia. rewrite check_debug_true. cbn [bind]. rewrite E. destruct l as [|x l]; [congruence|]. rewrite zlen_cons. pose proof (zlen_nonneg l). replace (1 + zlen l =? 0)%Z with false by lia. rewrite (rsum_pow_ok A (x :: l) _ HA). reflexivity.
Qed.
Lemma norm_lp_bad {V} c add div cast one abs powi pow zero (A : src1 V) p d : (p <= 0)%Z -> checked c = true -> r_norm_lp c add div cast one abs powi pow zero A p d = Fail (report c).
Proof. intros Hp HC. unfold r_norm_lp. replace (0 <? p)%Z with false by lia. now rewrite check_debug_false. Qed.
Lemma norms_ok n : In n [norm1; norm2; norminf] ->
  (forall l, 0 <= n l) /\ (forall l, n l = 0 <-> Forall (fun x => x = 0) l) /\ (forall a l, n (scale a l) = Rabs a * n l) /\ (forall l k, length l = length k -> n (vadd l k) <= n l + n k).
Proof.
  intros [<-|[<-|[<-|[]]]]; [split; [exact norm1_pos|split; [exact norm1_def|split; [exact norm1_scale|exact norm1_triangle]]]|split; [exact norm2_pos|split; [exact norm2_def|split; [exact norm2_scale|exact norm2_triangle]]]|split; [exact norminf_pos|split; [exact norminf_def|split; [exact norminf_scale|exact norminf_triangle]]]].
Qed.
