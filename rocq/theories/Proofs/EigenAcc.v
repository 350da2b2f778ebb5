(** Matrix products over rings, integers and floating-point numbers, for every order of accumulation. *)
From Coq Require Import ZArith List Permutation Reals Lra Lia Ring_theory Ring.
From Flocq Require Import Core BinarySingleNaN.
From Verif Require Import Base.Outcome Base.ZList Model.IntModel Model.ScalarOps Model.Index Model.Slice Model.Array1D Model.Array2D Model.StableOps Model.FloatModel Model.Eigen.
From Verif Require Import Spec.ArraySpec Spec.MatrixSpec Spec.ReduceSpec Spec.NormSpec Spec.StableSpec Spec.FloatSpec Spec.PlainSpec Spec.EigenSpec.
From Verif Require Import Proofs.MatrixProofs Proofs.EigenProofs Proofs.ReduceProofs Proofs.FloatProofs Proofs.FloatAcc Proofs.FloatPow Proofs.StableNorms Proofs.PlainAcc.
Import ListNotations.
Local Open Scope Z_scope.

(** ** Terms of a schedule *)
Section TERMS.
Context {V : Type} (mul : V -> V -> V) (d : V).
(** The product number p. *)
Definition term (l k : list V) (p : Z) : V := match znth (products mul l k) p with Some v => v | None => d end.
Lemma product_get l : forall k p x y, znth l p = Some x -> znth k p = Some y -> znth (products mul l k) p = Some (mul x y).
Proof.
  induction l as [|a l IH]; intros [|b k] p x y H1 H2; rewrite ?znth_nil in *; try discriminate. pose proof (znth_lt _ _ _ H1) as Hp. cbn [products].
  destruct (Z.eq_dec p 0) as [->|Hn]; [rewrite znth_cons_0 in *; congruence|]. rewrite znth_cons_pos in * by lia. now apply IH.
Qed.
Lemma term_get l k p x y : znth l p = Some x -> znth k p = Some y -> term l k p = mul x y.
Proof. intros H1 H2. unfold term. now rewrite (product_get _ _ _ _ _ H1 H2). Qed.
Lemma map_term_gen (ps : list V) : map (fun p => match znth ps p with Some v => v | None => d end) (zseq 0 (length ps)) = ps.
Proof.
  apply list_ext_zlen; [rewrite zmap, zlen_zseq; reflexivity|]. intros i Hi. rewrite zmap, zlen_zseq in Hi. rewrite znth_mapz, znth_zseq by exact Hi. cbn [option_map]. rewrite Z.add_0_l.
  destruct (znth_some ps i Hi) as [v ->]. reflexivity.
Qed.
Lemma map_terms l k : length l = length k -> map (term l k) (zseq 0 (length l)) = products mul l k.
Proof. intros HL. rewrite <- (products_len mul l k HL) at 1. apply map_term_gen. Qed.
End TERMS.

(** The terms of a schedule that accumulates n products are numbers below n. *)
Lemma zseq_in k : forall lo p, In p (zseq lo k) -> lo <= p < lo + Z.of_nat k.
Proof. induction k as [|k IH]; intros lo p H; [destruct H|]. destruct H as [<-|H]; [lia|]. apply IH in H. lia. Qed.
Lemma acc_in n s : accumulates n s -> Forall (fun p => 0 <= p < Z.of_nat n) (terms s).
Proof. intros H. apply Forall_forall. intros p Hp. apply (Permutation_in _ H) in Hp. apply zseq_in in Hp. lia. Qed.
Lemma acc_length n s : accumulates n s -> length (terms s) = n.
Proof. intros H. rewrite (Permutation_length H). generalize 0 at 1. clear. induction n as [|n IH]; intros lo; [reflexivity|]. cbn. now rewrite IH. Qed.

(** Sums do not depend on the order. *)
Lemma total_perm {V} (add : V -> V -> V) zero l k : (forall x y, add x y = add y x) -> (forall x y z, add x (add y z) = add (add x y) z) -> Permutation l k -> total add zero l = total add zero k.
Proof.
  intros C A H. induction H as [|x l k H IH|x y l|l k q H1 IH1 H2 IH2]; [reflexivity| | |congruence].
  - change (add x (total add zero l) = add x (total add zero k)). now rewrite IH.
  - change (add y (add x (total add zero l)) = add x (add y (total add zero l))). rewrite !A, (C y x). reflexivity.
Qed.

Section LISTS.
Context {V : Type} (l k : list V) (n : nat) (Hl : length l = n) (Hk : length k = n).
Lemma args p : 0 <= p < Z.of_nat n -> exists x y, oget l p = Ok x /\ oget k p = Ok y /\ znth l p = Some x /\ znth k p = Some y.
Proof.
  intros Hp. destruct (znth_some l p) as [x Hx]; [unfold zlen; lia|]. destruct (znth_some k p) as [y Hy]; [unfold zlen; lia|]. exists x, y. unfold oget. now rewrite Hx, Hy.
Qed.
End LISTS.

(** ** Exact arithmetic *)
Section EXACT.
Context {V : Type} (N : num V) (HX : exact_num N).
Notation "x + y" := (nadd N x y). Notation "x * y" := (nmul N x y).
Notation sum := (total (nadd N) (nzero N)).
Lemma sum_app a b : sum (a ++ b) = sum a + sum b.
Proof.
  pose proof (ex_ring N HX) as RT. induction a as [|x a IH]; [cbn; symmetry; apply (Radd_0_l RT)|]. cbn [app]. change (x + sum (a ++ b) = (x + sum a) + sum b). rewrite IH. apply (Radd_assoc RT).
Qed.
Lemma coeff_exact_gen l k n s : length l = n -> length k = n -> Forall (fun p => 0 <= p < Z.of_nat n) (terms s) ->
  coeff (num_ops N) (oget l) (oget k) s = Ok (sum (map (term (nmul N) (nzero N) l k) (terms s))).
Proof.
  intros Hl Hk. pose proof (ex_ring N HX) as RT. induction s as [|p|p s IH|s IHs t IHt|s IH]; cbn [terms coeff]; intros HF.
  - reflexivity.
  - inversion HF as [|? ? HP _]; subst. destruct (args l k _ eq_refl Hk p HP) as (x & y & E1 & E2 & Z1 & Z2). rewrite E1, E2. cbn [bind num_ops e_mul map]. rewrite (term_get _ _ _ _ _ _ _ Z1 Z2).
    change (sum [x * y]) with (x * y + nzero N). now rewrite (Radd_comm RT), (Radd_0_l RT).
  - inversion HF as [|? ? HP HF']; subst. destruct (args l k _ eq_refl Hk p HP) as (x & y & E1 & E2 & Z1 & Z2). rewrite E1, E2. cbn [bind]. rewrite (IH HF'). cbn [bind num_ops e_fma map]. rewrite (term_get _ _ _ _ _ _ _ Z1 Z2). now rewrite (ex_fma N HX).
  - apply Forall_app in HF as [H1 H2]. rewrite (IHs H1), (IHt H2). cbn [bind num_ops e_add]. now rewrite map_app, sum_app.
  - rewrite (IH HF). cbn [bind num_ops e_mul e_one]. now rewrite (Rmul_comm RT), (Rmul_1_l RT).
Qed.
Theorem coeff_exact l k n s : length l = n -> length k = n -> accumulates n s -> coeff (num_ops N) (oget l) (oget k) s = Ok (sum (products (nmul N) l k)).
Proof.
  intros Hl Hk HA. rewrite (coeff_exact_gen l k n s Hl Hk (acc_in _ _ HA)). pose proof (ex_ring N HX) as RT.
  rewrite (total_perm _ _ _ _ (Radd_comm RT) (Radd_assoc RT) (Permutation_map _ HA)). rewrite <- Hl, map_terms by congruence. reflexivity.
Qed.
End EXACT.

(** ** Integers *)
Section INTS.
Context (t : ity).
Notation sum := (total Z.add 0).
Notation tm l k := (term Z.mul 0 l k).
Lemma zsum_app a b : sum (a ++ b) = sum a + sum b.
Proof. induction a as [|x a IH]; [reflexivity|]. cbn [app]. change (x + sum (a ++ b) = (x + sum a) + sum b). rewrite IH. ring. Qed.
Lemma zsum_abs l : Z.abs (sum l) <= sum (map Z.abs l) /\ 0 <= sum (map Z.abs l).
Proof. induction l as [|x l IH]; [cbn; lia|]. cbn [map]. change (sum (x :: l)) with (x + sum l). change (sum (Z.abs x :: map Z.abs l)) with (Z.abs x + sum (map Z.abs l)). lia. Qed.
Lemma coeff_unsigned_gen l k n s : signed t = false -> length l = n -> length k = n -> Forall (fun p => 0 <= p < Z.of_nat n) (terms s) ->
  coeff (int_ops t) (oget l) (oget k) s = Ok (sum (map (tm l k) (terms s)) mod tmod t).
Proof.
  intros HS Hl Hk. assert (TM : 0 < tmod t) by (destruct t; reflexivity). induction s as [|p|p s IH|s IHs s2 IHt|s IH]; cbn [terms coeff]; intros HF.
  - reflexivity.
  - inversion HF as [|? ? HP _]; subst. destruct (args l k _ eq_refl Hk p HP) as (x & y & E1 & E2 & Z1 & Z2). rewrite E1, E2. cbn [bind int_ops e_mul map]. rewrite (term_get _ _ _ _ _ _ _ Z1 Z2). unfold imul, arith. rewrite HS. do 2 f_equal. cbn. ring.
  - inversion HF as [|? ? HP HF']; subst. destruct (args l k _ eq_refl Hk p HP) as (x & y & E1 & E2 & Z1 & Z2). rewrite E1, E2. cbn [bind]. rewrite (IH HF'). cbn [bind int_ops e_fma map]. rewrite (term_get _ _ _ _ _ _ _ Z1 Z2). unfold imul, iadd, arith. rewrite HS. cbn [bind]. f_equal. rewrite <- Zplus_mod. reflexivity.
  - apply Forall_app in HF as [H1 H2]. rewrite (IHs H1), (IHt H2). cbn [bind int_ops e_add]. rewrite map_app, zsum_app. unfold iadd, arith. rewrite HS. f_equal. now rewrite <- Zplus_mod.
  - rewrite (IH HF). cbn [bind int_ops e_mul e_one]. unfold imul, arith. rewrite HS, Z.mul_1_r. f_equal. now apply Zmod_mod.
Qed.
Lemma in_range z : signed t = true -> Z.abs z <= tmax t -> inr t z = true.
Proof. intros HS H. unfold inr. destruct t; try discriminate; cbn [tmin tmax] in *; lia. Qed.
Lemma coeff_signed_gen l k n s : signed t = true -> length l = n -> length k = n -> Forall (fun p => 0 <= p < Z.of_nat n) (terms s) ->
  sum (map Z.abs (map (tm l k) (terms s))) <= tmax t -> coeff (int_ops t) (oget l) (oget k) s = Ok (sum (map (tm l k) (terms s))).
Proof.
  intros HS Hl Hk. induction s as [|p|p s IH|s IHs s2 IHt|s IH]; cbn [terms coeff]; intros HF HB.
  - reflexivity.
  - inversion HF as [|? ? HP _]; subst. destruct (args l k _ eq_refl Hk p HP) as (x & y & E1 & E2 & Z1 & Z2). rewrite E1, E2. cbn [bind int_ops e_mul map] in *. rewrite (term_get _ _ _ _ _ _ _ Z1 Z2) in *. unfold imul, arith. cbn [total fold_right] in *. rewrite HS, in_range by (auto; lia). f_equal. ring.
  - inversion HF as [|? ? HP HF']; subst. destruct (args l k _ eq_refl Hk p HP) as (x & y & E1 & E2 & Z1 & Z2). rewrite E1, E2. cbn [bind map] in *. rewrite (term_get _ _ _ _ _ _ _ Z1 Z2) in *.
    change (sum (Z.abs (x * y) :: map Z.abs (map (tm l k) (terms s)))) with (Z.abs (x * y) + sum (map Z.abs (map (tm l k) (terms s)))) in HB. destruct (zsum_abs (map (tm l k) (terms s))) as [B1 B2].
    rewrite (IH HF') by lia. cbn [bind int_ops e_fma]. unfold imul, iadd, arith. rewrite HS, in_range by (auto; lia). cbn [bind]. rewrite in_range by (auto; lia). reflexivity.
  - apply Forall_app in HF as [H1 H2]. rewrite !map_app, zsum_app in HB. destruct (zsum_abs (map (tm l k) (terms s))) as [B1 B2]. destruct (zsum_abs (map (tm l k) (terms s2))) as [B3 B4].
    rewrite (IHs H1), (IHt H2) by lia. cbn [bind int_ops e_add]. rewrite map_app, zsum_app. unfold iadd, arith. rewrite HS, in_range by (auto; lia). reflexivity.
  - rewrite (IH HF HB). destruct (zsum_abs (map (tm l k) (terms s))) as [B1 B2]. cbn [bind int_ops e_mul e_one]. unfold imul, arith. rewrite Z.mul_1_r, HS, in_range by (auto; lia). reflexivity.
Qed.
Lemma zperm a b : Permutation a b -> sum a = sum b.
Proof. apply total_perm; intros; ring. Qed.
Theorem coeff_unsigned l k n s : signed t = false -> length l = n -> length k = n -> accumulates n s -> coeff (int_ops t) (oget l) (oget k) s = Ok (sum (products Z.mul l k) mod tmod t).
Proof.
  intros HS Hl Hk HA. rewrite (coeff_unsigned_gen l k n s HS Hl Hk (acc_in _ _ HA)). rewrite (zperm _ _ (Permutation_map _ HA)). rewrite <- Hl, map_terms by congruence. reflexivity.
Qed.
Theorem coeff_signed l k n s : signed t = true -> length l = n -> length k = n -> accumulates n s -> sum (map Z.abs (products Z.mul l k)) <= tmax t ->
  coeff (int_ops t) (oget l) (oget k) s = Ok (sum (products Z.mul l k)).
Proof.
  intros HS Hl Hk HA HB. pose proof (Permutation_map (tm l k) HA) as HP. rewrite <- Hl, map_terms in HP by congruence.
  rewrite (coeff_signed_gen l k n s HS Hl Hk (acc_in _ _ HA)); [now rewrite (zperm _ _ HP)|]. now rewrite (zperm _ _ (Permutation_map Z.abs HP)).
Qed.
End INTS.

(** ** Floating point *)
Section FLOAT.
Local Open Scope R_scope.
Context (prec emax : Z) {Hp : Prec_gt_0 prec} {He : Prec_lt_emax prec emax} (P2 : (1 < prec)%Z).
Notation flt := (binary_float prec emax).
Notation F := (fnum prec emax).
Notation O := (num_ops F).
Notation rnd := (round radix2 (SpecFloat.fexp prec emax) ZnearestE).
Notation u := (uro prec).
Notation eta := (tiny prec emax).
Notation reals := (reals prec emax).
Notation fin x := (is_finite x = true).
Notation dots l k := (products Rmult (reals l) (reals k)).
Notation tr l k := (term Rmult 0 (reals l) (reals k)).

Lemma fma_all (x y z : flt) : fin (nfma F x y z) -> fin x /\ fin y /\ fin z.
Proof. destruct x as [a|a| |a m e h], y as [b|b| |b m' e' h'], z as [d|d| |d m2 e2 h2]; cbn; try (now intuition); try congruence; destruct (Bool.eqb _ _); cbn; congruence. Qed.
Lemma fma_inv (x y z : flt) : fin (nfma F x y z) -> B2R (nfma F x y z) = rnd (B2R x * B2R y + B2R z).
Proof.
  intros H. destruct (fma_all _ _ _ H) as (H1 & H2 & H3). generalize (Bfma_correct prec emax Hp He mode_NE x y z H1 H2 H3). cbn [round_mode]. case Rlt_bool_spec; intros L.
  - intros (A & _). exact A.
  - intros A. change (Bfma mode_NE x y z) with (nfma F x y z) in A. destruct (nfma F x y z); cbn in H, A; discriminate.
Qed.
Lemma one_fin : fin (none_ F). Proof. apply is_finite_Bone. Qed.
Lemma one_R : B2R (none_ F) = 1. Proof. apply Bone_correct. Qed.
Lemma rnd_same (x : flt) : rnd (B2R x) = B2R x.
Proof. apply round_generic; [typeclasses eauto|]. apply generic_format_B2R. Qed.
Lemma times_one (x : flt) : fin (nmul F x (none_ F)) -> fin x /\ B2R (nmul F x (none_ F)) = B2R x.
Proof.
  intros H. destruct (mult_args prec emax _ _ H) as [H1 H2]. split; [exact H1|]. destruct (mult_inv prec emax x _ H1 H2 H) as [E _]. rewrite E, one_R, Rmult_1_r. apply rnd_same.
Qed.

(** Bounds. *)
Definition bound (m : nat) (T : R) : R := ((1 + u) ^ m - 1) * T + (1 + u) ^ (m - 1) * (INR m * eta).
Lemma u0 : 0 < u. Proof. apply u_pos. Qed.
Lemma e0 : 0 <= eta. Proof. apply bpow_ge_0. Qed.
Lemma pow1 m : 1 <= (1 + u) ^ m. Proof. pose proof u0. apply pow_R1_Rle. lra. Qed.
Lemma pow_mono a b : (a <= b)%nat -> (1 + u) ^ a <= (1 + u) ^ b. Proof. pose proof u0. intros. apply Rle_pow; [lra|assumption]. Qed.
Lemma bound0 T : bound 0 T = 0. Proof. unfold bound. cbn. ring. Qed.
(** One more rounding. *)
Lemma grow a b T : (a < b)%nat -> 0 <= T -> (1 + u) * bound a T + u * T <= ((1 + u) ^ b - 1) * T + (1 + u) ^ (b - 1) * (INR a * eta).
Proof.
  intros HL HT. pose proof u0 as U. pose proof e0 as E. unfold bound. destruct a as [|a].
  - cbn [pow INR Nat.sub]. replace ((1 + u) * ((1 - 1) * T + 1 * (0 * eta)) + u * T) with (u * T) by ring. replace (0 * eta) with 0 by ring. rewrite Rmult_0_r, Rplus_0_r. apply Rmult_le_compat_r; [exact HT|].
    pose proof (pow_mono 1 b ltac:(lia)) as H. rewrite pow_1 in H. lra.
  - replace (S a - 1)%nat with a by lia. pose proof (pow_mono (S (S a)) b ltac:(lia)) as H1. pose proof (pow_mono (S a) (b - 1) ltac:(lia)) as H2. set (q := (1 + u)) in *. set (ie := INR (S a) * eta) in *.
    assert (0 <= ie) by (apply Rmult_le_pos; [apply pos_INR|exact E]).
    replace (q * ((q ^ S a - 1) * T + q ^ a * ie) + u * T) with ((q ^ S (S a) - 1) * T + q ^ S a * ie) by (unfold q; cbn [pow]; ring).
    apply Rplus_le_compat; (apply Rmult_le_compat_r; [assumption|lra]).
Qed.
Lemma reals_get l p x : znth l p = Some x -> znth (reals l) p = Some (B2R x).
Proof. intros H. unfold FloatSpec.reals. now rewrite znth_mapz, H. Qed.
Lemma tr_get l k p x y : znth l p = Some x -> znth k p = Some y -> tr l k p = B2R x * B2R y.
Proof. intros H1 H2. apply term_get; now apply reals_get. Qed.

Lemma acc_gen l k n s : length l = n -> length k = n -> Forall (fun p => (0 <= p < Z.of_nat n)%Z) (terms s) -> exists v, coeff O (oget l) (oget k) s = Ok v /\
  (fin v -> Rabs (B2R v - rsum (map (tr l k) (terms s))) <= bound (length (terms s)) (norm1 (map (tr l k) (terms s)))).
Proof.
  intros Hl Hk. pose proof u0 as U. pose proof e0 as E. induction s as [|p|p s IH|s IHs t IHt|s IH]; cbn [terms coeff]; intros HF.
  - eexists. split; [reflexivity|]. intros _. cbn. rewrite bound0. unfold rsum, total. cbn. rewrite Rminus_0_r, Rabs_R0. lra.
  - inversion HF as [|? ? HP _]; subst. destruct (args l k _ eq_refl Hk p HP) as (x & y & E1 & E2 & Z1 & Z2). rewrite E1, E2. cbn [bind num_ops e_mul map length]. eexists. split; [reflexivity|]. intros FV.
    rewrite (tr_get _ _ _ _ _ Z1 Z2), rsum_cons, norm1_cons. change (rsum []) with 0. change (norm1 []) with 0. rewrite !Rplus_0_r. pose proof (mul_abs prec emax x y FV) as B. unfold mul_close in B. unfold bound. cbn [pow INR Nat.sub].
    eapply Rle_trans; [exact B|]. lra.
  - inversion HF as [|? ? HP HF']; subst. destruct (args l k _ eq_refl Hk p HP) as (x & y & E1 & E2 & Z1 & Z2). rewrite E1, E2. cbn [bind]. destruct (IH HF') as (w & -> & IB). cbn [bind num_ops e_fma map length]. eexists. split; [reflexivity|]. intros FV.
    destruct (fma_all _ _ _ FV) as (_ & _ & FW). specialize (IB FW). rewrite (fma_inv _ _ _ FV). rewrite (tr_get _ _ _ _ _ Z1 Z2), rsum_cons, norm1_cons.
    set (t := B2R x * B2R y) in *. set (S0 := rsum (map (tr l k) (terms s))) in *. set (T0 := norm1 (map (tr l k) (terms s))) in *. set (a := length (terms s)) in *. assert (T1 : 0 <= T0) by apply norm1_nonneg.
    pose proof (rsum_norm1 (map (tr l k) (terms s))) as SN. fold S0 T0 in SN. pose proof (grow a (S a) T0 ltac:(lia) T1) as G. pose proof (rnd_err prec emax Hp (t + B2R w)) as RE. pose proof (pow1 (S a)) as W1. pose proof (pow1 a) as W2. pose proof (pow_mono 1 (S a) ltac:(lia)) as W3. rewrite pow_1 in W3.
    assert (EA : (S a - 1)%nat = a) by lia. unfold bound at 1. rewrite EA in G |- *. rewrite S_INR.
    assert (Rabs (rnd (t + B2R w) - (t + S0)) <= u * Rabs (t + B2R w) + eta + bound a T0).
    { replace (rnd (t + B2R w) - (t + S0)) with ((rnd (t + B2R w) - (t + B2R w)) + (B2R w - S0)) by ring. eapply Rle_trans; [apply Rabs_triang|]. unfold tiny in RE |- *. lra. }
    assert (Rabs (t + B2R w) <= Rabs t + T0 + bound a T0).
    { replace (t + B2R w) with (t + S0 + (B2R w - S0)) by ring. eapply Rle_trans; [apply Rabs_triang|]. pose proof (Rabs_triang t S0). lra. }
    assert (u * Rabs (t + B2R w) <= u * (Rabs t + T0 + bound a T0)) by (apply Rmult_le_compat_l; lra).
    assert (u * Rabs t <= ((1 + u) ^ S a - 1) * Rabs t) by (apply Rmult_le_compat_r; [apply Rabs_pos|lra]).
    assert (eta <= (1 + u) ^ a * eta) by (rewrite <- (Rmult_1_l eta) at 1; apply Rmult_le_compat_r; assumption).
    lra.
  - apply Forall_app in HF as [H1 H2]. destruct (IHs H1) as (v & -> & B1). destruct (IHt H2) as (w & -> & B2). cbn [bind num_ops e_add]. eexists. split; [reflexivity|]. intros FV. destruct (plus_args prec emax _ _ FV) as [F1 F2]. specialize (B1 F1). specialize (B2 F2).
    rewrite map_app, rsum_app, norm1_app, app_length. set (Sv := rsum (map (tr l k) (terms s))) in *. set (Tv := norm1 (map (tr l k) (terms s))) in *. set (Sw := rsum (map (tr l k) (terms t))) in *. set (Tw := norm1 (map (tr l k) (terms t))) in *.
    assert (T1 : 0 <= Tv) by apply norm1_nonneg. assert (T2 : 0 <= Tw) by apply norm1_nonneg. pose proof (rsum_norm1 (map (tr l k) (terms s))) as N1. fold Sv Tv in N1. pose proof (rsum_norm1 (map (tr l k) (terms t))) as N2. fold Sw Tw in N2.
    destruct (plus_inv prec emax v w F1 F2 FV) as [EV _].
    destruct (terms s) as [|p ps] eqn:TS; [|destruct (terms t) as [|q qs] eqn:TT].
    + cbn [length Nat.add] in *. rewrite bound0 in B1. assert (Sv = 0) as -> by reflexivity. assert (Tv = 0) as -> by reflexivity. assert (B2R v = 0) as V0. { rewrite Rminus_0_r in B1. pose proof (Rabs_pos (B2R v)). destruct (Req_dec (B2R v) 0) as [|NZ]; [assumption|]. pose proof (Rabs_pos_lt _ NZ). lra. }
      rewrite EV, V0, !Rplus_0_l, rnd_same. exact B2.
    + cbn [length] in B2. rewrite bound0 in B2. rewrite Nat.add_0_r. assert (Sw = 0) as -> by reflexivity. assert (Tw = 0) as -> by reflexivity. assert (B2R w = 0) as V0. { rewrite Rminus_0_r in B2. pose proof (Rabs_pos (B2R w)). destruct (Req_dec (B2R w) 0) as [|NZ]; [assumption|]. pose proof (Rabs_pos_lt _ NZ). lra. }
      rewrite EV, V0, !Rplus_0_r, rnd_same. exact B1.
    + set (a := length (p :: ps)) in *. set (b := length (q :: qs)) in *. assert (1 <= a)%nat by (unfold a; cbn; lia). assert (1 <= b)%nat by (unfold b; cbn; lia).
      pose proof (grow a (a + b) Tv ltac:(lia) T1) as G1. pose proof (grow b (a + b) Tw ltac:(lia) T2) as G2. pose proof (add_rel prec emax v w FV) as RE. change (FloatSpec.fadd prec emax v w) with (nadd F v w) in RE.
      assert (Rabs (B2R (nadd F v w) - (Sv + Sw)) <= u * Rabs (B2R v + B2R w) + bound a Tv + bound b Tw).
      { replace (B2R (nadd F v w) - (Sv + Sw)) with ((B2R (nadd F v w) - (B2R v + B2R w)) + ((B2R v - Sv) + (B2R w - Sw))) by ring. eapply Rle_trans; [apply Rabs_triang|]. pose proof (Rabs_triang (B2R v - Sv) (B2R w - Sw)). lra. }
      assert (Rabs (B2R v + B2R w) <= Tv + bound a Tv + (Tw + bound b Tw)).
      { replace (B2R v + B2R w) with ((Sv + (B2R v - Sv)) + (Sw + (B2R w - Sw))) by ring. eapply Rle_trans; [apply Rabs_triang|]. pose proof (Rabs_triang Sv (B2R v - Sv)). pose proof (Rabs_triang Sw (B2R w - Sw)). lra. }
      assert (u * Rabs (B2R v + B2R w) <= u * (Tv + bound a Tv + (Tw + bound b Tw))) by (apply Rmult_le_compat_l; lra).
      unfold bound at 1. rewrite plus_INR. lra.
  - destruct (IH HF) as (v & -> & B). cbn [bind num_ops e_mul e_one]. eexists. split; [reflexivity|]. intros FV. destruct (times_one v FV) as [F1 ->]. now apply B.
Qed.
Lemma rperm a b : Permutation a b -> rsum a = rsum b.
Proof. apply total_perm; intros; ring. Qed.
Theorem coeff_acc l k n s : length l = n -> length k = n -> accumulates n s -> exists v, coeff O (oget l) (oget k) s = Ok v /\
  (fin v -> Rabs (B2R v - rsum (dots l k)) <= ((1 + u) ^ n - 1) * norm1 (dots l k) + (1 + u) ^ (n - 1) * (INR n * eta)).
Proof.
  intros Hl Hk HA. destruct (acc_gen l k n s Hl Hk (acc_in _ _ HA)) as (v & EV & B). exists v. split; [exact EV|]. intros FV. specialize (B FV). rewrite (acc_length _ _ HA) in B.
  pose proof (Permutation_map (tr l k) HA) as HP'. assert (HR : length (reals l) = n) by (unfold FloatSpec.reals; now rewrite map_length). rewrite <- HR in HP'. rewrite map_terms in HP' by (unfold FloatSpec.reals; rewrite !map_length; congruence).
  rewrite (rperm _ _ HP') in B. unfold norm1 in B at 1. rewrite (rperm _ _ (Permutation_map Rabs HP')) in B. exact B.
Qed.

(** Whole numbers. *)
Notation big := (bpow radix2 prec).
Notation whole := (whole prec emax).
Lemma fma_whole (x y z : flt) : whole x -> whole y -> whole z -> Rabs (B2R x * B2R y + B2R z) <= big -> whole (nfma F x y z) /\ B2R (nfma F x y z) = B2R x * B2R y + B2R z.
Proof.
  intros (X1 & zx & X2) (Y1 & zy & Y2) (Z1 & zz & Z2) HB. pose proof (big_top prec emax) as BT. assert (EQ : rnd (B2R x * B2R y + B2R z) = B2R x * B2R y + B2R z).
  { apply round_generic; [typeclasses eauto|]. rewrite X2, Y2, Z2 in HB |- *. rewrite <- mult_IZR, <- plus_IZR in HB |- *. now apply int_format. }
  destruct (fma_fin prec emax x y z X1 Y1 Z1) as [Q1 Q3]; [rewrite EQ; lra|]. rewrite EQ in Q1. split; [|exact Q1]. split; [exact Q3|]. exists (zx * zy + zz)%Z. rewrite Q1, X2, Y2, Z2. now rewrite plus_IZR, mult_IZR.
Qed.
Lemma one_whole : whole (none_ F). Proof. split; [apply one_fin|]. exists 1%Z. apply one_R. Qed.
Lemma znth_whole l p x : Forall whole l -> znth l p = Some x -> whole x.
Proof. intros HF H. rewrite Forall_forall in HF. apply HF. unfold znth in H. destruct (p <? 0)%Z; [discriminate|]. eapply nth_error_In; eassumption. Qed.
Lemma whole_gen l k n s : length l = n -> length k = n -> Forall whole l -> Forall whole k -> Forall (fun p => (0 <= p < Z.of_nat n)%Z) (terms s) -> norm1 (map (tr l k) (terms s)) <= big ->
  exists v, coeff O (oget l) (oget k) s = Ok v /\ whole v /\ B2R v = rsum (map (tr l k) (terms s)).
Proof.
  intros Hl Hk Wl Wk. induction s as [|p|p s IH|s IHs t IHt|s IH]; cbn [terms coeff]; intros HF HB.
  - eexists. split; [reflexivity|]. split; [exact (zero_whole prec emax)|reflexivity].
  - inversion HF as [|? ? HP _]; subst. destruct (args l k _ eq_refl Hk p HP) as (x & y & E1 & E2 & Z1 & Z2). rewrite E1, E2. cbn [bind num_ops e_mul map] in *. eexists. split; [reflexivity|].
    rewrite (tr_get _ _ _ _ _ Z1 Z2) in *. rewrite norm1_cons in HB. rewrite rsum_cons. change (norm1 []) with 0 in HB. change (rsum []) with 0. rewrite Rplus_0_r in *. apply (mul_whole prec emax P2); [exact (znth_whole l p x Wl Z1)|exact (znth_whole k p y Wk Z2)|exact HB].
  - inversion HF as [|? ? HP HF']; subst. destruct (args l k _ eq_refl Hk p HP) as (x & y & E1 & E2 & Z1 & Z2). rewrite E1, E2. cbn [bind map] in *. rewrite (tr_get _ _ _ _ _ Z1 Z2) in *. rewrite norm1_cons in HB. pose proof (Rabs_pos (B2R x * B2R y)).
    pose proof (rsum_norm1 (map (tr l k) (terms s))) as SN. destruct (IH HF' ltac:(lra)) as (w & -> & W1 & W2). cbn [bind num_ops e_fma]. eexists. split; [reflexivity|]. rewrite rsum_cons, <- W2. rewrite <- W2 in SN. apply fma_whole; [exact (znth_whole l p x Wl Z1)|exact (znth_whole k p y Wk Z2)|exact W1|].
    eapply Rle_trans; [apply Rabs_triang|]. lra.
  - apply Forall_app in HF as [H1 H2]. rewrite map_app, norm1_app in HB. pose proof (norm1_nonneg (map (tr l k) (terms s))). pose proof (norm1_nonneg (map (tr l k) (terms t))).
    pose proof (rsum_norm1 (map (tr l k) (terms s))) as N1. pose proof (rsum_norm1 (map (tr l k) (terms t))) as N2. destruct (IHs H1 ltac:(lra)) as (v & -> & V1 & V2). destruct (IHt H2 ltac:(lra)) as (w & -> & W1 & W2). cbn [bind num_ops e_add]. eexists. split; [reflexivity|].
    rewrite map_app, rsum_app, <- V2, <- W2. apply (add_whole prec emax P2); auto. rewrite V2, W2. eapply Rle_trans; [apply Rabs_triang|]. lra.
  - destruct (IH HF HB) as (v & -> & V1 & V2). cbn [bind num_ops e_mul e_one]. eexists. split; [reflexivity|]. pose proof (rsum_norm1 (map (tr l k) (terms s))) as N1. rewrite <- V2 in N1 |- *.
    destruct (mul_whole prec emax P2 v (none_ F) V1 one_whole) as [M1 M2]; [rewrite one_R, Rmult_1_r; lra|]. split; [exact M1|]. rewrite one_R, Rmult_1_r in M2. exact M2.
Qed.
Theorem coeff_whole l k n s : length l = n -> length k = n -> Forall whole l -> Forall whole k -> accumulates n s -> norm1 (dots l k) <= big ->
  exists v, coeff O (oget l) (oget k) s = Ok v /\ whole v /\ B2R v = rsum (dots l k).
Proof.
  intros Hl Hk Wl Wk HA HB. pose proof (Permutation_map (tr l k) HA) as HP'. assert (HR : length (reals l) = n) by (unfold FloatSpec.reals; now rewrite map_length). rewrite <- HR in HP'. rewrite map_terms in HP' by (unfold FloatSpec.reals; rewrite !map_length; congruence).
  rewrite <- (rperm _ _ HP'). apply (whole_gen l k n); auto; [now apply acc_in|]. unfold norm1. rewrite (rperm _ _ (Permutation_map Rabs HP')). exact HB.
Qed.
End FLOAT.

(** ** Matrices *)
Section MATRICES.
Context {V : Type} (c : cfg) (O : eops V) (sch : Z -> Z -> sched) (h : objs V) (pa pb : Z) (M N : list (list V)) (HM : multipliable c (h pa) (h pb) M N).
Lemma lengths i j : 0 <= i < zlen M -> 0 <= j < ncols N -> length (line M i) = length N /\ length (column N j) = length N.
Proof.
  intros Hi Hj. destruct HM as (_ & (WA & _) & (WB & _) & E & _). pose proof (line_len M i WA Hi) as L1. pose proof (column_len N j WB Hj) as L2. unfold zlen in *. lia.
Qed.
Theorem prods (P : list V -> list V -> V -> Prop) :
  (forall i j, 0 <= i < zlen M -> 0 <= j < ncols N -> length (line M i) = length N -> length (column N j) = length N ->
   exists v, coeff O (oget (line M i)) (oget (column N j)) (sch i j) = Ok v /\ P (line M i) (column N j) v) ->
  products_are c O sch h pa pb M N P.
Proof.
  intros H. pose proof HM as (Hc & RA & RB & HD & LA & LB & LC). set (T := fun i j => match coeff O (oget (line M i)) (oget (column N j)) (sch i j) with Ok v => v | _ => e_zero O end).
  assert (HT : forall i j, 0 <= i < zlen M -> 0 <= j < ncols N -> coeff O (oget (line M i)) (oget (column N j)) (sch i j) = Ok (T i j) /\ P (line M i) (column N j) (T i j)).
  { intros i j Hi Hj. destruct (lengths i j Hi Hj) as [L1 L2]. destruct (H i j Hi Hj L1 L2) as (v & E & PV). unfold T. rewrite E. now split. }
  split.
  - destruct (prod_ok c Hc O sch (h pa) (h pb) M N RA RB T HD LA LB LC) as (C & EC & RC); [intros; now apply HT|]. exists C, T. split; [exact EC|]. split; [exact RC|]. intros. now apply HT.
  - intros pc K RK K1 K2. destruct (prod3_ok c Hc O sch h pa pb pc M N K RA RB RK LA LB LC T HD K1 K2) as (h' & EC & RC & HQ); [intros; now apply HT|]. exists h', T. split; [exact EC|]. split; [exact RC|]. split; [exact HQ|]. intros. now apply HT.
Qed.
End MATRICES.

Section INSTANCES.
Context (c : cfg) (sch : Z -> Z -> sched) (pa pb : Z).
Theorem prods_exact {V} (N0 : num V) (HX : exact_num N0) (h : objs V) M N : multipliable c (h pa) (h pb) M N -> (forall i j, accumulates (length N) (sch i j)) ->
  products_are c (num_ops N0) sch h pa pb M N (fun row col v => v = total (nadd N0) (nzero N0) (products (nmul N0) row col)).
Proof. intros HM HA. apply prods; [exact HM|]. intros i j _ _ L1 L2. eexists. split; [now apply (coeff_exact N0 HX _ _ _ _ L1 L2)|reflexivity]. Qed.
Theorem prods_unsigned t (h : objs Z) M N : signed t = false -> multipliable c (h pa) (h pb) M N -> (forall i j, accumulates (length N) (sch i j)) ->
  products_are c (int_ops t) sch h pa pb M N (fun row col v => v = total Z.add 0 (products Z.mul row col) mod tmod t).
Proof. intros HS HM HA. apply prods; [exact HM|]. intros i j _ _ L1 L2. eexists. split; [now apply (coeff_unsigned t _ _ _ _ HS L1 L2)|reflexivity]. Qed.
Theorem prods_signed t (h : objs Z) M N : signed t = true -> multipliable c (h pa) (h pb) M N -> (forall i j, accumulates (length N) (sch i j)) ->
  (forall i j, 0 <= i < zlen M -> 0 <= j < ncols N -> total Z.add 0 (map Z.abs (products Z.mul (line M i) (column N j))) <= tmax t) ->
  products_are c (int_ops t) sch h pa pb M N (fun row col v => v = total Z.add 0 (products Z.mul row col)).
Proof. intros HS HM HA HB. apply prods; [exact HM|]. intros i j Hi Hj L1 L2. eexists. split; [now apply (coeff_signed t _ _ _ _ HS L1 L2); auto|reflexivity]. Qed.

Section FL.
Context (prec emax : Z) {Hp : Prec_gt_0 prec} {He : Prec_lt_emax prec emax} (P2 : 1 < prec).
Notation vals := (reals prec emax).
Notation dots l k := (products Rmult (vals l) (vals k)).
Notation u := (uro prec).
Theorem prods_acc (h : objs (binary_float prec emax)) M N : multipliable c (h pa) (h pb) M N -> (forall i j, accumulates (length N) (sch i j)) ->
  products_are c (num_ops (fnum prec emax)) sch h pa pb M N (fun row col v => is_finite v = true -> let n := length N in
    (Rabs (B2R v - rsum (dots row col)) <= ((1 + u) ^ n - 1) * norm1 (dots row col) + (1 + u) ^ (n - 1) * (INR n * tiny prec emax))%R).
Proof. intros HM HA. apply prods; [exact HM|]. intros i j _ _ L1 L2. exact (coeff_acc prec emax _ _ _ _ L1 L2 (HA i j)). Qed.
Theorem prods_whole (h : objs (binary_float prec emax)) M N : multipliable c (h pa) (h pb) M N -> (forall i j, accumulates (length N) (sch i j)) ->
  (forall i j, 0 <= i < zlen M -> 0 <= j < ncols N -> Forall (whole prec emax) (line M i) /\ Forall (whole prec emax) (column N j) /\ (norm1 (dots (line M i) (column N j)) <= bpow radix2 prec)%R) ->
  products_are c (num_ops (fnum prec emax)) sch h pa pb M N (fun row col v => is_finite v = true /\ B2R v = rsum (dots row col)).
Proof.
  intros HM HA HB. apply prods; [exact HM|]. intros i j Hi Hj L1 L2. destruct (HB i j Hi Hj) as (W1 & W2 & W3). destruct (coeff_whole prec emax P2 _ _ _ _ L1 L2 W1 W2 (HA i j) W3) as (v & E & [F1 _] & E2). exists v. auto.
Qed.
End FL.
End INSTANCES.

(** ** Cases *)
(** The products 0 .. n-1 added from the left, and from the right with fused multiplications. *)
Fixpoint leftwards (n : nat) : sched := match n with 0%nat => SZero | Datatypes.S k => SAdd (leftwards k) (STerm (Z.of_nat k)) end.
Fixpoint fused (n : nat) : sched := match n with 0%nat => SZero | Datatypes.S k => SFma (Z.of_nat k) (fused k) end.
Lemma zseq_last n : forall lo, zseq lo (Datatypes.S n) = zseq lo n ++ [lo + Z.of_nat n].
Proof. induction n as [|n IH]; intros lo; [cbn; now rewrite Z.add_0_r|]. change (lo :: zseq (lo + 1) (Datatypes.S n) = lo :: zseq (lo + 1) n ++ [lo + Z.of_nat (Datatypes.S n)]). rewrite IH. do 3 f_equal. lia. Qed.
Theorem leftwards_ok n : accumulates n (leftwards n).
Proof. induction n as [|n IH]; [constructor|]. unfold accumulates in *. rewrite zseq_last. cbn [leftwards terms]. apply Permutation_app; [exact IH|]. reflexivity. Qed.
Theorem fused_ok n : accumulates n (fused n).
Proof. induction n as [|n IH]; [constructor|]. unfold accumulates in *. rewrite zseq_last. cbn [fused terms]. rewrite <- Permutation_cons_append. now constructor. Qed.
