From Verif Require Import Base.Outcome Model.IntModel Model.ScalarOps Spec.IntSpec Spec.ScalarSem Proofs.IntProofs.
Ltac Zify.zify_post_hook ::= Z.div_mod_to_equations.

(** ** Integer powers *)

Lemma pow_split x p : 0 <= p -> x ^ p = (if Z.odd p then x else 1) * (x * x) ^ (p / 2).
Proof.
  intros Hp. assert (0 <= p / 2) by lia.
  rewrite Z.pow_mul_l, <- Z.pow_add_r by lia.
  destruct (Z.odd p) eqn:E.
  - rewrite <- Z.pow_succ_r by lia. f_equal. pose proof (Zmod_odd p) as Em; rewrite E in Em; lia.
  - rewrite Z.mul_1_l. f_equal. pose proof (Zmod_odd p) as Em; rewrite E in Em; lia.
Qed.

Lemma fuel_half p n : 0 <= p < 2 ^ (Z.of_nat (S n)) -> p / 2 < 2 ^ Z.of_nat n.
Proof. rewrite Nat2Z.inj_succ, Z.pow_succ_r by lia. lia. Qed.

(* Unsigned *)
Lemma pows_loop_unsigned t n res pr xr :
  signed t = false -> 0 <= pr < 2 ^ Z.of_nat n -> (0 < n)%nat ->
  pows_loop t n (res mod 2 ^ bits t) pr (xr mod 2 ^ bits t) = Ok ((res * xr ^ pr) mod 2 ^ bits t).
Proof.
  intros Hs. assert (2 ^ bits t <> 0) as Hm by (destruct t; discriminate).
  revert res pr xr. induction n as [|n IH]; intros res pr xr Hp Hn; [lia|].
  cbn [pows_loop]. unfold imul. rewrite !arith_unsigned by assumption.
  assert (forall b : bool, (if b then Ok ((res mod 2 ^ bits t * (xr mod 2 ^ bits t)) mod 2 ^ bits t) else Ok (res mod 2 ^ bits t))
          = Ok ((res * (if b then xr else 1)) mod 2 ^ bits t)) as Eb.
  { intros [|]; [now rewrite <- Z.mul_mod|now rewrite Z.mul_1_r]. }
  rewrite Eb. cbn [bind]. rewrite (pow_split xr pr) by lia.
  destruct (Z.eqb_spec (pr / 2) 0) as [E0|E0].
  - rewrite E0, Z.pow_0_r, Z.mul_1_r. reflexivity.
  - rewrite <- Z.mul_mod by assumption. pose proof (fuel_half pr n Hp).
    assert (0 < n)%nat. { destruct n; [simpl in *; lia|lia]. }
    rewrite IH by (try lia; assumption). rewrite Z.mul_assoc. reflexivity.
Qed.

(* A value whose magnitude is at most 2^(w-1) and which is a square fits, since w-1 is odd. *)
Lemma pow2_square_odd z k : 0 <= k -> Z.odd k = true -> z * z <> 2 ^ k.
Proof.
  intros Hk Ho E.
  assert (exists m, 0 <= m /\ k = 2 * m + 1) as (m & Hm & ->).
  { pose proof (Zmod_odd k) as Em. rewrite Ho in Em. exists (k / 2). lia. }
  clear Hk Ho. revert z E. pattern m. apply natlike_ind; [| |exact Hm].
  - intros z E. simpl in E. change (2 ^ (2 * 0 + 1)) with 2 in E.
    assert (z <= -2 \/ z = -1 \/ z = 0 \/ z = 1 \/ 2 <= z) as Hz by lia. nia.
  - intros j Hj IH z E.
    replace (2 * Z.succ j + 1) with (2 * j + 1 + 2) in E by lia.
    rewrite Z.pow_add_r in E by lia. change (2 ^ 2) with 4 in E.
    assert (exists y, z = 2 * y) as [y ->].
    { exists (z / 2). destruct (Z.eq_dec (z mod 2) 0); [lia|].
      assert (z = 2 * (z / 2) + 1) by lia. set (q := z / 2) in *. clearbody q. subst z.
      assert (4 * (q * q + q) + 1 = 4 * 2 ^ (2 * j + 1)) by nia. lia. }
    apply (IH y). nia.
Qed.

Lemma fits_square t z : signed t = true -> Z.abs (z * z) <= 2 ^ (bits t - 1) -> fits (signed t) (bits t) (z * z).
Proof.
  intros Hs H. rewrite Hs. unfold fits.
  assert (z * z <> 2 ^ (bits t - 1)).
  { apply pow2_square_odd; destruct t; try discriminate; reflexivity || (simpl; lia). }
  nia.
Qed.

Lemma abs_pow_ge1 x p : x <> 0 -> 0 <= p -> 1 <= Z.abs (x ^ p).
Proof.
  intros Hx Hp. assert (x ^ p <> 0) by (apply Z.pow_nonzero; lia). lia.
Qed.

Lemma mul_ge_mid a b c : 1 <= a -> 0 <= b -> 1 <= c -> b <= a * (b * c).
Proof. intros. assert (b * 1 <= b * c) by (apply Z.mul_le_mono_nonneg_l; lia).
  assert (1 * (b * c) <= a * (b * c)) by (apply Z.mul_le_mono_nonneg_r; lia). lia. Qed.
Lemma mul_in_range a p m : 0 < p -> - m <= a * p < m -> - m <= a < m.
Proof. intros. nia. Qed.
Lemma nonzero_sq x : x <> 0 -> 0 < x * x.
Proof. nia. Qed.

Lemma pows_loop_signed t n res pr xr :
  signed t = true -> 0 <= pr < 2 ^ Z.of_nat n -> (0 < n)%nat ->
  fits (signed t) (bits t) res -> res <> 0 \/ (xr = 0) ->
  pows_loop t n res pr xr =
  if inr t (res * xr ^ pr) then Ok (res * xr ^ pr) else UB.
Proof.
  intros Hs. revert res pr xr. induction n as [|n IH]; intros res pr xr Hp Hn Hres Hnz; [lia|].
  cbn [pows_loop]. unfold imul.
  assert ((if Z.odd pr then arith t (res * xr) else Ok res) = arith t (res * (if Z.odd pr then xr else 1))) as ->.
  { destruct (Z.odd pr); [reflexivity|]. rewrite Z.mul_1_r. now rewrite arith_signed_ok. }
  rewrite (pow_split xr pr), Z.mul_assoc by lia.
  set (b := if Z.odd pr then xr else 1) in *.
  pose proof (fuel_half pr n Hp) as Hhalf. assert (0 <= pr / 2) as Hh0 by lia.
  unfold arith at 1. rewrite Hs.
  destruct (Z.eqb_spec (pr / 2) 0) as [E0|E0].
  - rewrite E0, Z.pow_0_r, Z.mul_1_r. destruct (inr t (res * b)); reflexivity.
  - assert (0 < n)%nat as Hn'. { destruct n; [simpl in *; lia|lia]. }
    destruct (Z.eq_dec xr 0) as [->|Hxr].
    + (* base zero *)
      assert ((0 * 0) ^ (pr / 2) = 0) as EZ by (apply Z.pow_0_l; lia).
      rewrite EZ, (Z.mul_0_r (res * b)). assert (inr t 0 = true) as E00 by (destruct t; reflexivity).
      rewrite E00.
      assert (inr t (res * b) = true) as ->.
      { unfold b. destruct (Z.odd pr); [now rewrite Z.mul_0_r|]. rewrite Z.mul_1_r. now apply inr_fits. }
      cbn [bind]. rewrite Z.mul_0_l.
      assert (arith t 0 = Ok 0) as ->.
      { apply arith_signed_ok; auto. apply inr_fits. exact E00. }
      cbn [bind]. rewrite IH; [|lia|lia| |right; reflexivity].
      * rewrite Z.pow_0_l by lia. now rewrite Z.mul_0_r, E00.
      * unfold b. destruct (Z.odd pr); [rewrite Z.mul_0_r; now apply inr_fits|]. now rewrite Z.mul_1_r.
    + destruct Hnz as [Hnz|]; [|contradiction].
      assert (b <> 0) as Hb by (unfold b; destruct (Z.odd pr); [assumption|discriminate]).
      assert (1 <= Z.abs ((xr * xr) ^ (pr / 2 - 1))) as G1 by (apply abs_pow_ge1; [pose proof (nonzero_sq xr Hxr); lia|lia]).
      assert ((xr * xr) ^ (pr / 2) = xr * xr * (xr * xr) ^ (pr / 2 - 1)) as EP.
      { replace (pr / 2) with (Z.succ (pr / 2 - 1)) at 1 by lia. apply Z.pow_succ_r. lia. }
      set (F := res * b * (xr * xr) ^ (pr / 2)).
      destruct (inr t (res * b)) eqn:E1; cbn [bind].
      * unfold arith. rewrite Hs. destruct (inr t (xr * xr)) eqn:E2; cbn [bind].
        -- rewrite IH; [reflexivity|lia|lia|apply inr_fits; exact E1|left; now apply Z.neq_mul_0].
        -- (* the square does not fit, hence the result does not *)
           destruct (inr t F) eqn:EF; [|reflexivity]. exfalso.
           apply inr_fits in EF. apply inr_fits_false in E2. apply E2. apply fits_square; [assumption|].
           assert (Z.abs F <= 2 ^ (bits t - 1)) as BF.
           { rewrite Hs in EF. unfold fits in EF. lia. }
           assert (Z.abs F = Z.abs (res * b) * (Z.abs (xr * xr) * Z.abs ((xr * xr) ^ (pr / 2 - 1)))) as EA.
           { unfold F. rewrite EP. rewrite !Z.abs_mul. reflexivity. }
           assert (res * b <> 0) by now apply Z.neq_mul_0.
           pose proof (mul_ge_mid (Z.abs (res * b)) (Z.abs (xr * xr)) (Z.abs ((xr * xr) ^ (pr / 2 - 1)))
                        ltac:(lia) ltac:(lia) G1). lia.
      * (* res*b already out of range *)
        destruct (inr t F) eqn:EF; [|reflexivity]. exfalso.
        apply inr_fits in EF. apply inr_fits_false in E1. apply E1. rewrite Hs in *. unfold fits in EF |- *.
        apply (mul_in_range _ ((xr * xr) ^ (pr / 2))); [|exact EF].
        apply Z.pow_pos_nonneg; [now apply nonzero_sq|lia].
Qed.

Lemma pow_exp_bound t pw : fits (signed t) (bits t) pw -> 0 <= pw -> 0 <= pw < 2 ^ Z.of_nat 64.
Proof.
  rewrite <- inr_fits. unfold inr. intros H H0. change (2 ^ Z.of_nat 64) with 18446744073709551616.
  destruct t; simpl in H; lia.
Qed.

Lemma fits_one t : fits (signed t) (bits t) 1.
Proof. apply inr_fits. destruct t; reflexivity. Qed.

Lemma pows_spec c t x pw :
  fits (signed t) (bits t) x -> fits (signed t) (bits t) pw -> 0 <= pw ->
  (fits (signed t) (bits t) (x ^ pw) -> pows c t x pw = Ok (x ^ pw)) /\
  (~ fits (signed t) (bits t) (x ^ pw) -> signed t = true -> pows c t x pw = UB) /\
  (~ fits (signed t) (bits t) (x ^ pw) -> signed t = false -> pows c t x pw = Ok (x ^ pw mod 2 ^ bits t)).
Proof.
  intros Hx Hp H0. unfold pows. replace (0 <=? pw) with true by lia. rewrite check_debug_true. cbn [bind].
  pose proof (pow_exp_bound t pw Hp H0) as Hb.
  destruct (signed t) eqn:Hs.
  - rewrite pows_loop_signed; auto; [|lia|apply fits_one|left; discriminate].
    rewrite Z.mul_1_l. repeat split; intros H; [| |discriminate].
    + assert (inr t (x ^ pw) = true) as -> by (apply inr_fits; now rewrite Hs). reflexivity.
    + assert (inr t (x ^ pw) = false) as -> by (apply inr_fits_false; now rewrite Hs). reflexivity.
  - assert (pows_loop t 64 1 pw x = Ok (x ^ pw mod 2 ^ bits t)) as E.
    { assert (x = x mod 2 ^ bits t) as E1 by (symmetry; apply Z.mod_small; exact Hx).
      assert (1 = 1 mod 2 ^ bits t) as E2 by (destruct t; reflexivity).
      rewrite E1 at 1. rewrite E2 at 1. rewrite pows_loop_unsigned; auto; [|lia]. now rewrite Z.mul_1_l. }
    repeat split; intros H; [|discriminate|]; rewrite E; auto.
    f_equal. apply Z.mod_small. exact H.
Qed.

Lemma pows_negative c t x pw : checked c = true -> pw < 0 -> pows c t x pw = Fail (report c).
Proof.
  intros Hc Hp. unfold pows. replace (0 <=? pw) with false by lia. now rewrite check_debug_false.
Qed.

(** ** factorial *)
Lemma fact_pos n : 1 <= fact n.
Proof. induction n as [|n IH]; cbn [fact]; lia. Qed.
Lemma fact_mono n m : (n <= m)%nat -> fact n <= fact m.
Proof.
  induction 1 as [|m H IH]; [lia|]. cbn [fact]. pose proof (fact_pos m). nia.
Qed.

Lemma factorial_rec_ok c n :
  fact n <= LONG_MAX -> Z.of_nat n <= LONG_MAX -> factorial_rec c (S n) (Z.of_nat n) = Ok (fact n).
Proof.
  induction n as [|n IH]; intros Hf Hn; cbn [factorial_rec].
  - simpl. now rewrite check_debug_true.
  - replace (-1 <? Z.of_nat (S n)) with true by lia. rewrite check_debug_true. cbn [bind].
    replace (Z.of_nat (S n) =? 0) with false by lia.
    rewrite lsub_ok by (unfold LONG_MIN; lia). cbn [bind].
    replace (Z.of_nat (S n) - 1) with (Z.of_nat n) by lia.
    pose proof (fact_mono n (S n) ltac:(lia)).
    pose proof (IH ltac:(lia) ltac:(lia)) as IH'. cbn [factorial_rec] in IH'. rewrite IH'.
    cbn [bind]. apply lmul_ok. pose proof (fact_pos (S n)). cbn [fact] in *. unfold LONG_MIN. lia.
Qed.

Lemma factorial_rec_ub c n : fact n > LONG_MAX -> Z.of_nat n <= LONG_MAX -> factorial_rec c (S n) (Z.of_nat n) = UB.
Proof.
  induction n as [|n IH]; intros Hf Hn.
  - cbv in Hf. discriminate.
  - cbn [factorial_rec].
    replace (-1 <? Z.of_nat (S n)) with true by lia. rewrite check_debug_true. cbn [bind].
    replace (Z.of_nat (S n) =? 0) with false by lia.
    rewrite lsub_ok by (unfold LONG_MIN; lia). cbn [bind].
    replace (Z.of_nat (S n) - 1) with (Z.of_nat n) by lia.
    destruct (Z_le_gt_dec (fact n) LONG_MAX) as [Hle|Hgt].
    + pose proof (factorial_rec_ok c n Hle ltac:(lia)) as E. cbn [factorial_rec] in E. rewrite E. cbn [bind].
      apply lret_ub. cbn [fact] in Hf. lia.
    + pose proof (IH Hgt ltac:(lia)) as E. cbn [factorial_rec] in E. now rewrite E.
Qed.

Lemma factorial_ok c n : 0 <= n <= 20 -> factorial c n = Ok (fact (Z.to_nat n)).
Proof.
  intros H. unfold factorial. replace n with (Z.of_nat (Z.to_nat n)) at 2 by lia.
  apply factorial_rec_ok; [|unfold LONG_MAX; lia].
  apply Z.le_trans with (fact 20); [apply fact_mono; lia|]. vm_compute. discriminate.
Qed.
Lemma factorial_ub c n : 21 <= n <= LONG_MAX -> factorial c n = UB.
Proof.
  intros H. unfold factorial. replace n with (Z.of_nat (Z.to_nat n)) at 2 by lia.
  apply factorial_rec_ub; [|lia].
  apply Z.lt_gt. apply Z.lt_le_trans with (fact 21); [reflexivity|]. apply fact_mono. lia.
Qed.
Lemma factorial_neg c n : checked c = true -> n < 0 -> factorial c n = Fail (report c).
Proof.
  intros Hc Hn. unfold factorial. cbn [factorial_rec]. replace (-1 <? n) with false by lia.
  now rewrite check_debug_false.
Qed.

(** ** binomial coefficients *)
Lemma choose_0_r n : choose n 0 = 1.
Proof. destruct n; reflexivity. Qed.
Lemma choose_nonneg n k : 0 <= choose n k.
Proof. revert k; induction n as [|n IH]; intros [|k]; cbn [choose]; try lia. pose proof (IH k). pose proof (IH (S k)). lia. Qed.
Lemma choose_gt n k : (n < k)%nat -> choose n k = 0.
Proof. revert k; induction n as [|n IH]; intros [|k] H; cbn [choose]; try lia. rewrite !IH by lia. reflexivity. Qed.
Lemma choose_pos n k : (k <= n)%nat -> 1 <= choose n k.
Proof.
  revert k; induction n as [|n IH]; intros [|k] H; cbn [choose]; try lia.
  pose proof (IH k ltac:(lia)). pose proof (choose_nonneg n (S k)). lia.
Qed.
(* (k+1) C(n+1,k+1) = (n+1) C(n,k) *)
Lemma choose_absorb n k : Z.of_nat (S k) * choose (S n) (S k) = Z.of_nat (S n) * choose n k.
Proof.
  revert k. induction n as [|n IH]; intros k.
  - destruct k as [|k]; cbn [choose]; [lia|]. lia.
  - destruct k as [|k].
    + change (choose (S (S n)) 1) with (choose (S n) 0 + choose (S n) 1).
      pose proof (IH O) as H. rewrite !choose_0_r in *. lia.
    + change (choose (S (S n)) (S (S k))) with (choose (S n) (S k) + choose (S n) (S (S k))).
      pose proof (IH k) as H1. pose proof (IH (S k)) as H2.
      change (choose (S n) (S k)) with (choose n k + choose n (S k)) in *. nia.
Qed.
Lemma choose_mono_diag d j : choose (d + j) j <= choose (d + S j) (S j).
Proof.
  replace (d + S j)%nat with (S (d + j)) by lia. cbn [choose].
  pose proof (choose_nonneg (d + j) (S j)). lia.
Qed.

Lemma choose_mono_diag_le d j k : (j <= k)%nat -> choose (d + j) j <= choose (d + k) k.
Proof. induction 1 as [|k H IH]; [lia|]. pose proof (choose_mono_diag d k). lia. Qed.

(* invariant: after j iterations prod = C(d+j, j), f1 = d+1+j, f2 = j+1 *)
Lemma binom_loop_ok c (d m j : nat) :
  let n := (d + j + m)%nat in
  Z.of_nat n < LONG_MAX ->
  Z.of_nat (j + m) * choose n (j + m) <= LONG_MAX \/ m = O ->
  binom_loop c m (Z.of_nat n) (choose (d + j) j) (Z.of_nat (d + j + 1)) (Z.of_nat (j + 1)) = Ok (choose n (j + m)).
Proof.
  revert j. induction m as [|m IH]; intros j n Hn Hfit.
  - cbn [binom_loop]. replace (Z.of_nat (d + j + 1) <=? Z.of_nat n) with false by lia.
    f_equal. f_equal; lia.
  - cbn [binom_loop]. replace (Z.of_nat (d + j + 1) <=? Z.of_nat n) with true by lia.
    destruct Hfit as [Hfit|]; [|lia].
    assert (Z.of_nat (S j) * choose (S (d + j)) (S j) = Z.of_nat (S (d + j)) * choose (d + j) j) as Habs
      by apply choose_absorb.
    assert (choose (S (d + j)) (S j) <= choose n (j + S m)) as Hmono.
    { replace (S (d + j)) with (d + S j)%nat by lia. replace n with (d + (j + S m))%nat by lia.
      apply choose_mono_diag_le. lia. }
    pose proof (choose_pos (S (d + j)) (S j) ltac:(lia)) as Hpos.
    assert (choose (d + j) j * Z.of_nat (d + j + 1) = Z.of_nat (S j) * choose (S (d + j)) (S j)) as Eprod.
    { replace (d + j + 1)%nat with (S (d + j)) by lia. lia. }
    rewrite lmul_ok.
    2:{ rewrite Eprod. unfold LONG_MIN. nia. }
    cbn [bind]. rewrite Eprod. replace (Z.of_nat (j + 1)) with (Z.of_nat (S j)) by lia.
    assert (Z.quot (Z.of_nat (S j) * choose (S (d + j)) (S j)) (Z.of_nat (S j)) = choose (S (d + j)) (S j)) as Eq.
    { rewrite Z.mul_comm. apply Z.quot_mul. lia. }
    rewrite ldiv_ok; [|lia|rewrite Eq; unfold LONG_MIN; nia].
    cbn [bind]. rewrite Eq.
    rewrite ladd_ok by (unfold LONG_MIN; lia). cbn [bind]. rewrite ladd_ok by (unfold LONG_MIN; lia). cbn [bind].
    replace n with (d + S j + m)%nat by lia.
    replace (Z.of_nat (d + j + 1) + 1) with (Z.of_nat (d + S j + 1)) by lia.
    replace (Z.of_nat (S j) + 1) with (Z.of_nat (S j + 1)) by lia.
    replace (S (d + j)) with (d + S j)%nat by lia.
    replace (j + S m)%nat with (S j + m)%nat by lia.
    apply IH; [lia|]. left.
    replace (d + S j + m)%nat with n by lia. replace (S j + m)%nat with (j + S m)%nat by lia. exact Hfit.
Qed.

Lemma binom_loop_ub c (d m j : nat) :
  let n := (d + j + m)%nat in
  Z.of_nat n < LONG_MAX -> choose (d + j) j <= LONG_MAX ->
  (0 < m)%nat -> Z.of_nat (j + m) * choose n (j + m) > LONG_MAX ->
  binom_loop c m (Z.of_nat n) (choose (d + j) j) (Z.of_nat (d + j + 1)) (Z.of_nat (j + 1)) = UB.
Proof.
  revert j. induction m as [|m IH]; intros j n Hn Hj Hm Hbig; [lia|].
  cbn [binom_loop]. replace (Z.of_nat (d + j + 1) <=? Z.of_nat n) with true by lia.
  assert (Z.of_nat (S j) * choose (S (d + j)) (S j) = Z.of_nat (S (d + j)) * choose (d + j) j) as Habs
    by apply choose_absorb.
  pose proof (choose_pos (S (d + j)) (S j) ltac:(lia)) as Hpos.
  assert (choose (d + j) j * Z.of_nat (d + j + 1) = Z.of_nat (S j) * choose (S (d + j)) (S j)) as Eprod.
  { replace (d + j + 1)%nat with (S (d + j)) by lia. lia. }
  destruct (Z_le_gt_dec (Z.of_nat (S j) * choose (S (d + j)) (S j)) LONG_MAX) as [Hle|Hgt].
  - rewrite lmul_ok by (rewrite Eprod; unfold LONG_MIN; lia).
    cbn [bind]. rewrite Eprod. replace (Z.of_nat (j + 1)) with (Z.of_nat (S j)) by lia.
    assert (Z.quot (Z.of_nat (S j) * choose (S (d + j)) (S j)) (Z.of_nat (S j)) = choose (S (d + j)) (S j)) as Eq.
    { rewrite Z.mul_comm. apply Z.quot_mul. lia. }
    rewrite ldiv_ok; [|lia|rewrite Eq; unfold LONG_MIN; nia].
    cbn [bind]. rewrite Eq.
    rewrite ladd_ok by (unfold LONG_MIN; lia). cbn [bind]. rewrite ladd_ok by (unfold LONG_MIN; lia). cbn [bind].
    destruct (Nat.eq_dec m 0) as [->|Hm0].
    { exfalso. replace n with (S (d + j)) in Hbig by lia. replace (j + 1)%nat with (S j) in Hbig by lia. lia. }
    replace n with (d + S j + m)%nat by lia.
    replace (Z.of_nat (d + j + 1) + 1) with (Z.of_nat (d + S j + 1)) by lia.
    replace (Z.of_nat (S j) + 1) with (Z.of_nat (S j + 1)) by lia.
    replace (S (d + j)) with (d + S j)%nat by lia.
    apply IH; [lia| |lia|].
    + replace (d + S j)%nat with (S (d + j)) by lia. nia.
    + replace (d + S j + m)%nat with n by lia. replace (S j + m)%nat with (j + S m)%nat by lia. exact Hbig.
  - unfold lmul. rewrite lret_ub by (rewrite Eprod; lia). reflexivity.
Qed.

Lemma binom_enter c n k :
  0 <= k <= n -> n < LONG_MAX ->
  binom_coeff c n k =
  binom_loop c (Z.to_nat k) (Z.of_nat (Z.to_nat (n - k) + 0 + Z.to_nat k)) (choose (Z.to_nat (n - k) + 0) 0)
    (Z.of_nat (Z.to_nat (n - k) + 0 + 1)) (Z.of_nat (0 + 1)).
Proof.
  intros Hk Hn. unfold binom_coeff. replace (-1 <? k) with true by lia. replace (k <=? n) with true by lia.
  rewrite !check_debug_true. cbn [bind].
  rewrite lsub_ok by (unfold LONG_MIN; lia). cbn [bind].
  rewrite ladd_ok by (unfold LONG_MIN; lia). cbn [bind].
  rewrite ladd_ok by (unfold LONG_MIN; lia). cbn [bind].
  rewrite choose_0_r. f_equal; lia.
Qed.

Lemma binom_ok c n k :
  0 <= k <= n -> n < LONG_MAX -> k * choose (Z.to_nat n) (Z.to_nat k) <= LONG_MAX ->
  binom_coeff c n k = Ok (choose (Z.to_nat n) (Z.to_nat k)).
Proof.
  intros Hk Hn Hf. rewrite binom_enter by assumption.
  rewrite binom_loop_ok; [|lia|].
  - do 2 f_equal; lia.
  - left. replace (Z.to_nat (n - k) + 0 + Z.to_nat k)%nat with (Z.to_nat n) by lia.
    simpl Nat.add. rewrite Z2Nat.id by lia. exact Hf.
Qed.

Lemma binom_ub c n k :
  0 <= k <= n -> n < LONG_MAX -> k * choose (Z.to_nat n) (Z.to_nat k) > LONG_MAX -> binom_coeff c n k = UB.
Proof.
  intros Hk Hn Hf. rewrite binom_enter by assumption.
  assert (0 < k) by (destruct (Z.eq_dec k 0) as [->|]; [unfold LONG_MAX in Hf; lia|lia]).
  apply binom_loop_ub; [lia| |lia|].
  - rewrite choose_0_r. unfold LONG_MAX. lia.
  - replace (Z.to_nat (n - k) + 0 + Z.to_nat k)%nat with (Z.to_nat n) by lia.
    simpl Nat.add. rewrite Z2Nat.id by lia. exact Hf.
Qed.

Lemma binom_invalid c n k : LONG_MIN <= n <= LONG_MAX -> checked c = true -> k < 0 \/ n < k -> binom_coeff c n k = Fail (report c).
Proof.
  intros Hn Hc H. unfold binom_coeff. destruct (Z.ltb_spec (-1) k).
  - rewrite check_debug_true. cbn [bind]. replace (k <=? n) with false by lia. now rewrite check_debug_false.
  - now rewrite check_debug_false.
Qed.

Lemma choose_fact a b : choose (a + b) a * (fact a * fact b) = fact (a + b).
Proof.
  revert b. induction a as [|a IH]; intros b.
  - cbn [Nat.add fact]. rewrite choose_0_r. lia.
  - pose proof (choose_absorb (a + b) a) as H. cbn [Nat.add] in *.
    change (fact (S a)) with (Z.of_nat (S a) * fact a). change (fact (S (a + b))) with (Z.of_nat (S (a + b)) * fact (a + b)).
    rewrite <- IH.
    replace (choose (S (a + b)) (S a) * (Z.of_nat (S a) * fact a * fact b)) with
      (Z.of_nat (S a) * choose (S (a + b)) (S a) * (fact a * fact b)) by ring.
    rewrite H. ring.
Qed.
Lemma choose_62_31 : choose 62 31 = 465428353255261088.
Proof.
  pose proof (choose_fact 31 31) as H. change (31 + 31)%nat with 62%nat in H.
  apply (Z.mul_reg_r _ _ (fact 31 * fact 31)); [vm_compute; discriminate|].
  rewrite H. vm_compute. reflexivity.
Qed.

(* n = LONG_MAX: the final ++f1 overflows at the latest *)
Lemma binom_loop_max c m prod f1 f2 : f1 <= LONG_MAX -> 1 <= f2 -> binom_loop c m LONG_MAX prod f1 f2 = UB.
Proof.
  revert prod f1 f2. induction m as [|m IH]; intros prod f1 f2 H1 H2; cbn [binom_loop];
    replace (f1 <=? LONG_MAX) with true by lia; [reflexivity|].
  unfold lmul, lret. destruct (in_long (prod * f1)); [cbn [bind]|reflexivity].
  unfold ldiv. replace (f2 =? 0) with false by lia. simpl negb. rewrite check_debug_true. cbn [bind].
  unfold lret. destruct (in_long (Z.quot (prod * f1) f2)); [cbn [bind]|reflexivity].
  unfold ladd, lret. destruct (in_long (f1 + 1)) eqn:E1; [cbn [bind]|reflexivity].
  destruct (in_long (f2 + 1)) eqn:E2; [cbn [bind]|reflexivity].
  apply in_long_spec in E1. apply IH; lia.
Qed.
Lemma binom_max c k : 0 <= k <= LONG_MAX -> binom_coeff c LONG_MAX k = UB.
Proof.
  intros Hk. unfold binom_coeff. replace (-1 <? k) with true by lia. replace (k <=? LONG_MAX) with true by lia.
  rewrite !check_debug_true. cbn [bind].
  rewrite lsub_ok by (unfold LONG_MAX, LONG_MIN in *; lia). cbn [bind].
  unfold ladd at 1, lret. destruct (in_long (LONG_MAX - k + 1)) eqn:E; [cbn [bind]|reflexivity].
  apply in_long_spec in E.
  rewrite ladd_ok by (unfold LONG_MAX, LONG_MIN in *; lia). cbn [bind].
  replace (LONG_MAX - k + k) with LONG_MAX by lia. apply binom_loop_max; lia.
Qed.

(** ** clamps etc. *)
Lemma clamps_ok c x low high :
  low <= high -> exists r, clamps c x low high = Ok r /\ low <= r <= high /\
    (forall y, low <= y <= high -> Z.abs (x - r) <= Z.abs (x - y)).
Proof.
  intros H. unfold clamps. replace (low <=? high) with true by lia. replace (high <? low) with false by lia.
  rewrite check_debug_true. cbn [bind]. eexists. split; [reflexivity|].
  destruct (Z.ltb_spec x low), (Z.ltb_spec high x); (split; [lia|intros; lia]).
Qed.
Lemma clamps_fail c x low high : checked c = true -> high < low -> clamps c x low high = Fail (report c).
Proof. intros Hc H. unfold clamps. replace (low <=? high) with false by lia. now rewrite check_debug_false. Qed.
Lemma in_open_ok c x low high : low <= high ->
  exists b, in_open c x low high = Ok b /\ (b = true <-> low < x < high).
Proof.
  intros H. unfold in_open. replace (low <=? high) with true by lia. rewrite check_debug_true. cbn [bind].
  eexists. split; [reflexivity|lia].
Qed.
Lemma in_closed_ok c x low high : low <= high ->
  exists b, in_closed c x low high = Ok b /\ (b = true <-> low <= x <= high).
Proof.
  intros H. unfold in_closed. replace (low <=? high) with true by lia. rewrite check_debug_true. cbn [bind].
  eexists. split; [reflexivity|lia].
Qed.
Lemma in_range_fail c x low high : checked c = true -> high < low ->
  in_open c x low high = Fail (report c) /\ in_closed c x low high = Fail (report c).
Proof.
  intros Hc H. unfold in_open, in_closed. replace (low <=? high) with false by lia.
  rewrite check_debug_false by assumption. now split.
Qed.
Lemma mins_min x y : mins x y = Z.min x y.
Proof. unfold mins. destruct (Z.ltb_spec x y); lia. Qed.
Lemma maxs_max x y : maxs x y = Z.max x y.
Proof. unfold maxs. destruct (Z.ltb_spec y x); lia. Qed.
Lemma abss_ok t x : fits (signed t) (bits t) x -> x <> - 2 ^ (bits t - 1) -> abss t x = Ok (Z.abs x).
Proof.
  intros Hx Hn. unfold abss. destruct (signed t) eqn:Hs.
  - destruct (Z.ltb_spec 0 x); [f_equal; lia|]. unfold ineg. rewrite arith_signed_ok; auto.
    + f_equal; lia.
    + rewrite Hs. unfold fits in *. lia.
  - unfold fits in Hx. f_equal; lia.
Qed.
Lemma abss_min t : signed t = true -> abss t (- 2 ^ (bits t - 1)) = UB.
Proof. destruct t; try discriminate; intros _; reflexivity. Qed.
Lemma signs_abs x : signs x * Z.abs x = x /\ (signs x = 1 <-> 0 < x) /\ (signs x = -1 <-> x < 0) /\ (signs x = 0 <-> x = 0).
Proof. unfold signs. destruct (Z.ltb_spec 0 x), (Z.ltb_spec x 0); cbn [Z.b2z]; lia. Qed.

(** ** fast_pows_int *)
Section FastPow.
Context {M : Type} (mul : M -> M -> M) (one : M) (inv : M -> M).
Hypothesis mul_assoc : forall a b c, mul a (mul b c) = mul (mul a b) c.
Hypothesis mul_1_l : forall a, mul one a = a.
Hypothesis mul_1_r : forall a, mul a one = a.

Notation mpow := (mpow mul one).

Lemma mpow_add x a b : mpow x (a + b) = mul (mpow x a) (mpow x b).
Proof. induction a as [|a IH]; simpl; [now rewrite mul_1_l|]. now rewrite IH, mul_assoc. Qed.
Lemma mpow_sq x k : mpow (mul x x) k = mpow x (k + k).
Proof.
  induction k as [|k IH]; [reflexivity|]. replace (S k + S k)%nat with (S (S (k + k))) by lia.
  simpl. now rewrite IH, mul_assoc.
Qed.

Lemma fast_pow_loop_ok n res pw x cnt :
  0 <= pw < 2 ^ Z.of_nat n -> (0 < n)%nat ->
  exists k, fast_pow_loop mul n res pw x cnt = Ok (mul res (mpow x (Z.to_nat pw)), cnt + k) /\
    0 <= k <= 2 * Z.log2 pw + 1.
Proof.
  revert res pw x cnt. induction n as [|n IH]; intros res pw x cnt Hp Hn; [lia|].
  cbn [fast_pow_loop].
  set (res' := if Z.odd pw then mul res x else res).
  assert (forall y, mul res' y = mul res (mul (mpow x (Z.to_nat (pw mod 2))) y)) as Er.
  { intros y. unfold res'. destruct (Z.odd pw) eqn:Eo.
    - pose proof (Zmod_odd pw) as Em; rewrite Eo in Em. replace (pw mod 2) with 1 by lia. simpl. rewrite mul_1_r. now rewrite mul_assoc.
    - pose proof (Zmod_odd pw) as Em; rewrite Eo in Em. replace (pw mod 2) with 0 by lia. simpl. now rewrite mul_1_l. }
  assert (mpow x (Z.to_nat pw) = mul (mpow x (Z.to_nat (pw mod 2))) (mpow (mul x x) (Z.to_nat (pw / 2)))) as Ep.
  { rewrite mpow_sq, <- mpow_add. f_equal. lia. }
  set (cnt' := if Z.odd pw then cnt + 1 else cnt).
  assert (cnt <= cnt' <= cnt + 1) as Hc by (unfold cnt'; destruct (Z.odd pw); lia).
  destruct (Z.eqb_spec (pw / 2) 0) as [E0|E0].
  - exists (cnt' - cnt). rewrite Ep, E0. cbn [Z.to_nat mpow]. rewrite mul_1_r.
    split.
    + f_equal. f_equal; [|lia]. rewrite <- (mul_1_r res'), Er, mul_1_r. reflexivity.
    + pose proof (Z.log2_nonneg pw). lia.
  - pose proof (fuel_half pw n Hp). assert (0 < n)%nat. { destruct n; [simpl in *; lia|lia]. }
    destruct (IH res' (pw / 2) (mul x x) (cnt' + 1)) as (k & E & Hk); [lia|lia|].
    exists (cnt' - cnt + 1 + k). rewrite E, Er, Ep. split; [do 2 f_equal; lia|].
    assert (Z.log2 pw = Z.succ (Z.log2 (pw / 2))) as EL.
    { rewrite <- Z.div2_div. destruct (Z.odd pw) eqn:Eo.
      - rewrite (Zdiv2_odd_eqn pw) at 1. rewrite Eo. rewrite Z.log2_succ_double; [lia|]. rewrite Z.div2_div. lia.
      - rewrite (Zdiv2_odd_eqn pw) at 1. rewrite Eo, Z.add_0_r. rewrite Z.log2_double; [lia|]. rewrite Z.div2_div. lia. }
    lia.
Qed.

Lemma fast_pows_int_ok x p :
  LONG_MIN < p <= LONG_MAX ->
  exists k, fast_pows_int mul one inv x p =
    Ok (if 0 <=? p then mpow x (Z.to_nat p) else inv (mpow x (Z.to_nat (- p))), k) /\
    0 <= k <= 2 * Z.log2 (Z.abs p) + 1.
Proof.
  intros Hp. unfold fast_pows_int, LONG_MIN, LONG_MAX in *.
  rewrite abss_ok; [|apply inr_fits; unfold inr; simpl; lia|simpl; lia]. cbn [bind].
  destruct (fast_pow_loop_ok 64 one (Z.abs p) x 0) as (k & E & Hk); [change (2 ^ Z.of_nat 64) with 18446744073709551616; lia|lia|].
  exists k. rewrite E. cbn [bind fst snd]. rewrite mul_1_l. split; [|exact Hk].
  do 2 f_equal. destruct (Z.leb_spec 0 p).
  - now rewrite Z.abs_eq by lia.
  - now rewrite Z.abs_neq by lia.
Qed.
Lemma fast_pows_int_min x : fast_pows_int mul one inv x LONG_MIN = UB.
Proof. reflexivity. Qed.
End FastPow.
