(** lp norms over the real numbers. *)
From Coq Require Import Reals Lra Psatz.
From Verif Require Import Base.Outcome Base.ZList Model.IntModel Model.Index Model.Slice Model.Array1D Model.Array2D Model.View2D Model.Expr Model.Reduce Model.StableOps.
From Verif Require Import Spec.ArraySpec Spec.SliceSpec Spec.ExprSpec Spec.ReduceSpec Spec.StableSpec Spec.NormSpec Spec.LpSpec.
From Verif Require Import Proofs.Array1DProofs Proofs.SliceProofs Proofs.ExprProofs Proofs.ExprMore Proofs.ReduceProofs Proofs.ReduceThms Proofs.NormThms Proofs.StablePoly.
Ltac Zify.zify_post_hook ::= Z.div_mod_to_equations.
Local Open Scope R_scope.

Lemma rnum_exact : exact_num rnum.
Proof.
  constructor; intros; cbn [rnum nzero none_ nadd nmul nsub nneg nfma nofZ]; try reflexivity; [exact R_ring|]. now rewrite plus_IZR.
Qed.
Lemma nabs_Rabs x : nabs rnum x = Rabs x.
Proof. unfold nabs, ngt. cbn. unfold Rltb. destruct (Rlt_dec 0 x) as [H|H]; [now rewrite Rabs_pos_eq by lra|]. now rewrite Rabs_left1 by lra. Qed.
Lemma power_pow x n : power 1 Rmult x n = x ^ n.
Proof. induction n as [|n IH]; [reflexivity|]. cbn. now rewrite IH. Qed.
Lemma lp_terms p l : gpoly_terms 1 Rmult (map (fun _ => 1) l) (map Rabs l) (map (fun _ => p) l) = map (fun x => Rabs x ^ Z.to_nat p) l.
Proof. induction l as [|x l IH]; [reflexivity|]. cbn [map gpoly_terms]. rewrite IH, power_pow, Rmult_1_l. reflexivity. Qed.

Lemma nonempty_len {V} (l : list V) : l <> [] -> (0 < zlen l)%Z.
Proof. destruct l; [congruence|]. intros _. rewrite zlen_cons. pose proof (zlen_nonneg l). lia. Qed.
Lemma stable_norm_lp_ok c powr A l p d : yields A (map Ok l) -> l <> [] -> (0 < p)%Z -> pow_fits c p -> (2 * zlen l <= LONG_MAX)%Z ->
  stable_norm_lp rnum c powr A p d = Ok (powr (lp_sum p l) (1 / IZR p)).
Proof.
  intros HA HN Hp HF HL. pose proof (nonempty_len l HN) as HP. pose proof HA as (EA & _). rewrite zlen_map in EA. unfold stable_norm_lp. replace (0 <? p)%Z with true by lia. rewrite check_debug_true. cbn [bind]. rewrite EA. replace (zlen l =? 0)%Z with false by lia.
  destruct (const1_ok c 1 (zlen l) ltac:(lia)) as (C & EC & HC). change (none_ rnum) with 1. rewrite EC. cbn [bind]. destruct (const1_ok c p (zlen l) ltac:(lia)) as (P & -> & HPS). cbn [bind].
  rewrite (const_list 1 l) in HC. rewrite (const_list p l) in HPS. pose proof (un_ok (fun x => Ok (nabs rnum x)) A _ HA) as HU. rewrite map_map in HU. cbn [bind] in HU. rewrite <- (map_map (nabs rnum) Ok) in HU.
  rewrite (stable_gpoly_exact rnum c rnum_exact C _ P _ _ _ (nzero rnum) HC HU HPS); rewrite ?zlen_map; try reflexivity; try assumption.
  - cbn [bind]. f_equal. f_equal. unfold lp_sum, rsum. cbn [rnum nadd nzero none_ nmul]. f_equal. rewrite <- lp_terms. f_equal. apply map_ext. exact nabs_Rabs.
  - destruct l; [congruence|discriminate].
  - apply Forall_forall. intros q Hq. apply in_map_iff in Hq. destruct Hq as (? & <- & _). assumption.
Qed.
Lemma stable_norm_lp_bad {V} (N : num V) c pow A p d : (p <= 0)%Z -> checked c = true -> stable_norm_lp N c pow A p d = Fail (report c) /\ stable_norm_lp_scaled N c pow A p d = Fail (report c).
Proof. intros Hp HC. unfold stable_norm_lp_scaled, stable_norm_lp. replace (0 <? p)%Z with false by lia. now rewrite check_debug_false. Qed.
Lemma stable_norm_lp_empty {V} (N : num V) c pow A p d : (0 < p)%Z -> yields A [] -> stable_norm_lp N c pow A p d = Ok d /\ stable_norm_lp_scaled N c pow A p d = Ok d.
Proof. intros Hp (E & _). rewrite zlen_nil in E. unfold stable_norm_lp_scaled, stable_norm_lp. replace (0 <? p)%Z with true by lia. rewrite check_debug_true, E. auto. Qed.
Lemma stable_norm_lp_scaled_ok c powr A l p d : yields A (map Ok l) -> l <> [] -> (0 < p)%Z -> pow_fits c p -> (2 * zlen l <= LONG_MAX)%Z ->
  stable_norm_lp_scaled rnum c powr A p d = Ok (powr (lp_sum p l) (1 / IZR p) / powr (IZR (zlen l)) (1 / IZR p)).
Proof.
  intros HA HN Hp HF HL. pose proof (nonempty_len l HN) as HP. pose proof HA as (EA & _). rewrite zlen_map in EA. unfold stable_norm_lp_scaled. replace (0 <? p)%Z with true by lia. rewrite check_debug_true. cbn [bind]. rewrite EA. replace (zlen l =? 0)%Z with false by lia.
  rewrite (stable_norm_lp_ok c powr A l p) by assumption. reflexivity.
Qed.
Notation norm_lp_real c powr A p d := (r_norm_lp c radd (fun x y => Ok (x / y)) (fun i => Ok (IZR i)) 1 Rabs (fun x p => Ok (x ^ Z.to_nat p)) powr 0 A p d) (only parsing).
Lemma norm_lp_scaled_ok c powr A l p d : yields A (map Ok l) -> l <> [] -> (0 < p)%Z ->
  r_norm_lp_scaled c radd (fun x y => Ok (x / y)) (fun i => Ok (IZR i)) 1 Rabs (fun x p => Ok (x ^ Z.to_nat p)) powr 0 A p d = Ok (powr (lp_sum p l) (1 / IZR p) / powr (IZR (zlen l)) (1 / IZR p)).
Proof.
  intros HA HN Hp. pose proof (nonempty_len l HN) as HP. pose proof HA as (EA & _). rewrite zlen_map in EA. unfold r_norm_lp_scaled. replace (0 <? p)%Z with true by lia. rewrite check_debug_true. cbn [bind]. rewrite EA. replace (zlen l =? 0)%Z with false by lia.
  rewrite (norm_lp_ok c A l p powr) by assumption. reflexivity.
Qed.
Lemma norm_lp_scaled_bad {V} c add div cast one abs powi pow zero (A : src1 V) p d : (p <= 0)%Z -> checked c = true -> r_norm_lp_scaled c add div cast one abs powi pow zero A p d = Fail (report c).
Proof. intros Hp HC. unfold r_norm_lp_scaled. replace (0 <? p)%Z with false by lia. now rewrite check_debug_false. Qed.

(** The lp norm is a norm. *)
Lemma pow_lt_strict a b n : 0 <= a < b -> (0 < n)%nat -> a ^ n < b ^ n.
Proof.
  intros H Hn. destruct n as [|n]; [lia|]. clear Hn. induction n as [|n IH]; [cbn; lra|]. change (a * a ^ S n < b * b ^ S n). pose proof (pow_le a (S n) ltac:(lra)). nra.
Qed.
Lemma pow_le_inv a b n : 0 <= a -> 0 <= b -> (0 < n)%nat -> a ^ n <= b ^ n -> a <= b.
Proof. intros Ha Hb Hn H. destruct (Rle_or_lt a b) as [|HL]; [assumption|]. pose proof (pow_lt_strict b a n ltac:(lra) Hn). lra. Qed.
Lemma pow_inj a b n : 0 <= a -> 0 <= b -> (0 < n)%nat -> a ^ n = b ^ n -> a = b.
Proof. intros Ha Hb Hn E. apply Rle_antisym; apply (pow_le_inv _ _ n); try assumption; lra. Qed.
Lemma pow_convex u v a b n : 0 <= u -> 0 <= v -> u + v = 1 -> 0 <= a -> 0 <= b -> (u * a + v * b) ^ n <= u * a ^ n + v * b ^ n.
Proof.
  intros Hu Hv E Ha Hb. induction n as [|n IH]; [cbn; lra|]. cbn [pow]. set (A := a ^ n) in *. set (B := b ^ n) in *.
  apply Rle_trans with ((u * a + v * b) * (u * A + v * B)); [apply Rmult_le_compat_l; [nra|exact IH]|].
  assert (0 <= (a - b) * (A - B)) as HD. { subst A B. destruct (Rle_or_lt a b) as [H|H]; [pose proof (pow_incr a b n ltac:(lra)); nra|pose proof (pow_incr b a n ltac:(lra)); nra]. }
  assert (u * (a * A) + v * (b * B) - (u * a + v * b) * (u * A + v * B) = u * v * ((a - b) * (A - B))) as E2 by (replace v with (1 - u) by lra; ring).
  pose proof (Rmult_le_pos _ _ (Rmult_le_pos _ _ Hu Hv) HD). lra.
Qed.
Notation S n l := (rsum (map (fun x => Rabs x ^ n) l)).
Lemma S_cons n x l : S n (x :: l) = Rabs x ^ n + S n l.
Proof. reflexivity. Qed.
Lemma S_pos n l : 0 <= S n l.
Proof. apply rsum_nonneg. apply Forall_forall. intros y Hy. apply in_map_iff in Hy. destruct Hy as (x & <- & _). apply pow_le, Rabs_pos. Qed.
Lemma S_in n l x : In x l -> Rabs x ^ n <= S n l.
Proof. induction l as [|y l IH]; [intros []|]. rewrite S_cons. pose proof (S_pos n l). pose proof (pow_le (Rabs y) n (Rabs_pos y)). intros [->|H1]; [lra|]. specialize (IH H1). lra. Qed.
Lemma S_zero n l : (0 < n)%nat -> S n l = 0 <-> Forall (fun x => x = 0) l.
Proof.
  intros Hn. split.
  - intros H. apply Forall_forall. intros x Hx. pose proof (S_in n l x Hx) as HI. pose proof (pow_le (Rabs x) n (Rabs_pos x)). destruct (Req_dec x 0) as [|HN]; [assumption|]. exfalso. pose proof (pow_lt (Rabs x) n (Rabs_pos_lt x HN)). lra.
  - induction 1 as [|x l -> HF IH]; [reflexivity|]. rewrite S_cons, IH, Rabs_R0, pow_i by lia. lra.
Qed.
Lemma S_scale n a l : S n (scale a l) = Rabs a ^ n * S n l.
Proof. induction l as [|x l IH]; [cbn; unfold rsum, total; cbn; ring|]. change (scale a (x :: l)) with (a * x :: scale a l). rewrite !S_cons. rewrite IH, Rabs_mult, Rpow_mult_distr. ring. Qed.
Lemma vadd_zero_l l : forall k, length l = length k -> Forall (fun x => x = 0) l -> vadd l k = k.
Proof. induction l as [|x l IH]; intros [|y k] HL HF; try discriminate; [reflexivity|]. inversion HF; subst. unfold vadd in *. cbn [products]. rewrite IH by (cbn in HL; congruence || assumption). f_equal. lra. Qed.
Lemma vadd_zero_r l : forall k, length l = length k -> Forall (fun x => x = 0) k -> vadd l k = l.
Proof. induction l as [|x l IH]; intros [|y k] HL HF; try discriminate; [reflexivity|]. inversion HF; subst. unfold vadd in *. cbn [products]. rewrite IH by (cbn in HL; congruence || assumption). f_equal. lra. Qed.
Lemma S_vadd n a b l : forall k, 0 < a -> 0 < b -> length l = length k ->
  S n (vadd l k) <= (a + b) ^ n * (a / (a + b) * (S n l / a ^ n) + b / (a + b) * (S n k / b ^ n)).
Proof.
  induction l as [|x l IH]; intros [|y k] Ha Hb HL; try discriminate.
  - unfold rsum, total. cbn. pose proof (pow_lt (a + b) n ltac:(lra)). unfold Rdiv. rewrite !Rmult_0_l, !Rmult_0_r, Rplus_0_r, Rmult_0_r. lra.
  - specialize (IH k Ha Hb ltac:(cbn in HL; congruence)). change (vadd (x :: l) (y :: k)) with ((x + y) :: vadd l k). rewrite !S_cons.
    set (u := a / (a + b)) in *. set (v := b / (a + b)) in *. assert (0 <= u) by (apply Rlt_le, Rdiv_lt_0_compat; lra). assert (0 <= v) by (apply Rlt_le, Rdiv_lt_0_compat; lra). assert (u + v = 1) by (subst u v; field; lra).
    pose proof (pow_lt a n Ha) as HA. pose proof (pow_lt b n Hb) as HB. pose proof (pow_lt (a + b) n ltac:(lra)) as HAB.
    assert (Rabs (x + y) ^ n <= (a + b) ^ n * (u * (Rabs x ^ n / a ^ n) + v * (Rabs y ^ n / b ^ n))) as HX.
    { apply Rle_trans with ((Rabs x + Rabs y) ^ n); [apply pow_incr; split; [apply Rabs_pos|apply Rabs_triang]|].
      replace (Rabs x + Rabs y) with ((a + b) * (u * (Rabs x * / a) + v * (Rabs y * / b))) by (subst u v; field; lra).
      rewrite Rpow_mult_distr. apply Rmult_le_compat_l; [lra|]. unfold Rdiv. rewrite <- !pow_inv, <- !Rpow_mult_distr.
      apply pow_convex; try assumption; apply Rmult_le_pos; try apply Rabs_pos; apply Rlt_le, Rinv_0_lt_compat; assumption. }
    unfold Rdiv in *. rewrite !Rmult_plus_distr_r. lra.
Qed.
Section NORM.
Context (p : Z) (Hp : (0 < p)%Z).
Notation n := (Z.to_nat p).
Lemma np : (0 < n)%nat. Proof. lia. Qed.
Lemma lp_unique l r r' : is_lp p l r -> is_lp p l r' -> r = r'.
Proof. intros [H1 E1] [H2 E2]. apply (pow_inj _ _ n); try assumption; [apply np|congruence]. Qed.
Lemma lp_def l r : is_lp p l r -> (r = 0 <-> Forall (fun x => x = 0) l).
Proof.
  intros [H1 E1]. rewrite <- (S_zero n l np). fold (lp_sum p l). rewrite <- E1. split; [intros ->; rewrite pow_i; [reflexivity|apply np]|]. intros H. destruct (Req_dec r 0) as [|HN]; [assumption|]. pose proof (pow_nonzero r n HN). lra.
Qed.
Lemma lp_scale a l r : is_lp p l r -> is_lp p (scale a l) (Rabs a * r).
Proof. intros [H1 E1]. split; [apply Rmult_le_pos; [apply Rabs_pos|assumption]|]. unfold lp_sum in *. rewrite S_scale, Rpow_mult_distr, E1. reflexivity. Qed.
Lemma lp_triangle l k a b r : length l = length k -> is_lp p l a -> is_lp p k b -> is_lp p (vadd l k) r -> r <= a + b.
Proof.
  intros HL Ha Hb Hr. pose proof Ha as [Ha1 Ha2]. pose proof Hb as [Hb1 Hb2]. pose proof Hr as [Hr1 Hr2]. destruct (Req_dec a 0) as [Ea|Ea].
  - apply (lp_def l a Ha) in Ea as HZ. rewrite (vadd_zero_l l k HL HZ) in Hr. rewrite (lp_unique k r b Hr Hb). lra.
  - destruct (Req_dec b 0) as [Eb|Eb].
    + apply (lp_def k b Hb) in Eb as HZ. rewrite (vadd_zero_r l k HL HZ) in Hr. rewrite (lp_unique l r a Hr Ha). lra.
    + apply (pow_le_inv _ _ n); try lra; [apply np|]. rewrite Hr2. unfold lp_sum in *. pose proof (S_vadd n a b l k ltac:(lra) ltac:(lra) HL) as HV. rewrite <- Ha2, <- Hb2 in HV.
      assert (a ^ n <> 0) by (apply pow_nonzero; lra). assert (b ^ n <> 0) by (apply pow_nonzero; lra).
      replace (a / (a + b) * (a ^ n / a ^ n) + b / (a + b) * (b ^ n / b ^ n)) with 1 in HV by (field; repeat split; lra). lra.
Qed.
Lemma lp_inf l r : is_lp p l r -> norminf l <= r.
Proof.
  intros [H1 E1]. apply norminf_bound; [assumption|]. intros x Hx. apply (pow_le_inv _ _ n); [apply Rabs_pos|assumption|apply np|]. rewrite E1. now apply S_in.
Qed.
End NORM.
Lemma pow_small x m n : 0 <= x <= 1 -> (m <= n)%nat -> x ^ n <= x ^ m.
Proof.
  intros Hx H. replace n with (m + (n - m))%nat by lia. rewrite pow_add. pose proof (pow_le x m ltac:(lra)). pose proof (pow_incr x 1 (n - m) ltac:(lra)) as H1. rewrite pow1 in H1. pose proof (pow_le x (n - m) ltac:(lra)). nra.
Qed.
(** Larger p, smaller norm. *)
Lemma lp_antitone p q l a b : (0 < p <= q)%Z -> is_lp p l a -> is_lp q l b -> b <= a.
Proof.
  intros Hpq Ha Hb. pose proof Ha as [Ha1 Ha2]. pose proof Hb as [Hb1 Hb2]. destruct (Req_dec a 0) as [Ea|Ea].
  - apply (lp_def p ltac:(lia) l a Ha) in Ea as HZ. apply (lp_def q ltac:(lia) l b Hb) in HZ. lra.
  - apply (pow_le_inv _ _ (Z.to_nat q)); try assumption; [lia|]. rewrite Hb2. unfold lp_sum in *. set (m := Z.to_nat p) in *. set (n := Z.to_nat q) in *.
    assert (forall x, In x l -> Rabs x <= a) as HX. { intros x Hx. apply (pow_le_inv _ _ m); [apply Rabs_pos|assumption|lia|]. rewrite Ha2. now apply S_in. }
    assert (S n l <= a ^ (n - m) * S m l) as HS.
    { clear -HX Ha1 Hpq. assert (m <= n)%nat as Hmn by lia. clear Hpq. clearbody m n. induction l as [|x l IH]; [unfold rsum, total; cbn; lra|]. rewrite !S_cons. specialize (IH (fun y Hy => HX y (or_intror Hy))).
      replace (Rabs x ^ n) with (Rabs x ^ (n - m) * Rabs x ^ m) by (rewrite <- pow_add; f_equal; lia).
      pose proof (pow_incr (Rabs x) a (n - m) (conj (Rabs_pos x) (HX x (or_introl eq_refl)))). pose proof (pow_le (Rabs x) m (Rabs_pos x)). nra. }
    rewrite <- Ha2 in HS. rewrite <- pow_add in HS. now replace (n - m + m)%nat with n in HS by lia.
Qed.
Lemma lp_1 l : is_lp 1 l (norm1 l).
Proof. split; [apply norm1_pos|]. unfold lp_sum, norm1. change (Z.to_nat 1) with 1%nat. rewrite pow_1. f_equal. apply map_ext. intros x. now rewrite pow_1. Qed.
Lemma lp_2 l : is_lp 2 l (norm2 l).
Proof.
  split; [apply norm2_pos|]. unfold lp_sum, norm2. change (Z.to_nat 2) with 2%nat. rewrite pow2_sqrt by apply sq_pos. f_equal. apply map_ext. intros x. now rewrite pow2_abs, <- Rsqr_pow2.
Qed.
(** The computed value is the lp norm when powr takes roots; the scaled norm of a constant array is the absolute value of the constant. *)
Lemma roots_lp powr p l : roots powr p -> is_lp p l (powr (lp_sum p l) (1 / IZR p)).
Proof. intros H. apply H. apply S_pos. Qed.
Lemma lp_const powr p a k : (0 < p)%Z -> roots powr p -> (0 < k)%nat -> powr (lp_sum p (repeat a k)) (1 / IZR p) / powr (INR k) (1 / IZR p) = Rabs a.
Proof.
  intros Hp HR Hk. assert (lp_sum p (repeat a k) = INR k * Rabs a ^ Z.to_nat p) as E.
  { unfold lp_sum. clear. induction k as [|k IH]; [unfold rsum, total; cbn; ring|]. cbn [repeat]. rewrite S_cons, IH, S_INR. ring. }
  pose proof (lt_0_INR k Hk) as HK. destruct (HR (INR k) ltac:(lra)) as [P1 P2]. set (w := powr (INR k) (1 / IZR p)) in *. assert (w <> 0) as HW. { intros E0. rewrite E0, pow_i in P2 by lia. lra. }
  rewrite (lp_unique p Hp (repeat a k) _ (w * Rabs a) (roots_lp powr p _ HR)); [now field|]. split; [apply Rmult_le_pos; [assumption|apply Rabs_pos]|]. rewrite Rpow_mult_distr, P2, E. reflexivity.
Qed.
(** An instance: x^y for x > 0. *)
Definition rpow (x y : R) : R := if Rle_dec x 0 then 0 else Rpower x y.
Lemma rpow_roots p : (0 < p)%Z -> roots rpow p.
Proof.
  intros Hp s Hs. unfold rpow. destruct (Rle_dec s 0) as [H|H].
  - split; [lra|]. rewrite pow_i by lia. lra.
  - split; [unfold Rpower; apply Rlt_le, exp_pos|]. rewrite <- Rpower_pow by (unfold Rpower; apply exp_pos). rewrite Rpower_mult, INR_IZR_INZ, Z2Nat.id by lia.
    replace (1 / IZR p * IZR p) with 1 by (field; apply not_0_IZR; lia). apply Rpower_1. lra.
Qed.
