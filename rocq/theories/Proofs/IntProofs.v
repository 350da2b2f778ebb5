From Verif Require Import Base.Outcome Model.IntModel Spec.IntSpec Spec.ScalarSem.
Ltac Zify.zify_post_hook ::= Z.div_mod_to_equations.

Lemma inr_fits t z : inr t z = true <-> fits (signed t) (bits t) z.
Proof.
  unfold inr, fits. destruct t; simpl;
  rewrite ?Z.shiftl_mul_pow2; cbn; lia.
Qed.
Lemma inr_fits_false t z : inr t z = false <-> ~ fits (signed t) (bits t) z.
Proof. rewrite <- inr_fits. destruct (inr t z); split; congruence. Qed.
Lemma tmod_pow t : tmod t = 2 ^ bits t.
Proof. destruct t; reflexivity. Qed.

Lemma wrap_fits t z : fits (signed t) (bits t) (wrap t z).
Proof.
  rewrite <- inr_fits. unfold wrap, inr.
  destruct (Z.leb_spec (z mod tmod t) (tmax t)); destruct t; cbn [tmin tmax tmod] in *; lia.
Qed.
Lemma wrap_cong t z : exists k, wrap t z = z + k * 2 ^ bits t.
Proof.
  rewrite <- tmod_pow. unfold wrap.
  assert (tmod t > 0) by (destruct t; reflexivity).
  destruct (z mod tmod t <=? tmax t).
  - exists (- (z / tmod t)). pose proof (Z.div_mod z (tmod t)). lia.
  - exists (- (z / tmod t) - 1). pose proof (Z.div_mod z (tmod t)). lia.
Qed.
Lemma wrap_id t z : fits (signed t) (bits t) z -> wrap t z = z.
Proof.
  rewrite <- inr_fits. unfold wrap, inr.
  destruct (Z.leb_spec (z mod tmod t) (tmax t)); destruct t; cbn [tmin tmax tmod] in *; lia.
Qed.

Lemma arith_signed_ok t z : signed t = true -> fits (signed t) (bits t) z -> arith t z = Ok z.
Proof. unfold arith. intros Hs H. apply inr_fits in H. now rewrite Hs, H. Qed.
Lemma arith_signed_ub t z : signed t = true -> ~ fits (signed t) (bits t) z -> arith t z = UB.
Proof. unfold arith. intros Hs H. apply inr_fits_false in H. now rewrite Hs, H. Qed.
Lemma arith_unsigned t z : signed t = false -> arith t z = Ok (z mod 2 ^ bits t).
Proof. unfold arith. intros ->. now rewrite tmod_pow. Qed.

Lemma arith_spec t z :
  (fits (signed t) (bits t) z -> arith t z = Ok z) /\
  (~ fits (signed t) (bits t) z -> signed t = true -> arith t z = UB) /\
  (~ fits (signed t) (bits t) z -> signed t = false -> arith t z = Ok (z mod 2 ^ bits t)).
Proof.
  repeat split.
  - destruct (signed t) eqn:Hs; intros H.
    + apply arith_signed_ok; [assumption|now rewrite Hs].
    + rewrite arith_unsigned by assumption. f_equal. apply Z.mod_small. exact H.
  - intros H Hs. now apply arith_signed_ub.
  - intros H Hs. now apply arith_unsigned.
Qed.

Lemma fits_dec s w z : {fits s w z} + {~ fits s w z}.
Proof.
  unfold fits. destruct s.
  - destruct (Z_le_dec (- 2 ^ (w - 1)) z), (Z_lt_dec z (2 ^ (w - 1))); (left; lia) || (right; lia).
  - destruct (Z_le_dec 0 z), (Z_lt_dec z (2 ^ w)); (left; lia) || (right; lia).
Qed.

Lemma ieval_signed t e :
  signed t = true -> lits_fit (signed t) (bits t) e ->
  (all_fit (signed t) (bits t) e /\ ieval t e = Ok (mval e)) \/
  (~ all_fit (signed t) (bits t) e /\ ieval t e = UB).
Proof.
  intros Hs. induction e as [z|a IHa b IHb|a IHa b IHb|a IHa b IHb]; cbn [lits_fit all_fit ieval mval];
    [left; tauto|..];
    intros [Ha Hb]; destruct (IHa Ha) as [[Fa Ea]|[Fa Ea]]; rewrite Ea; cbn [bind];
    (try (right; split; [tauto|reflexivity]));
    destruct (IHb Hb) as [[Fb Eb]|[Fb Eb]]; rewrite Eb; cbn [bind];
    (try (right; split; [tauto|reflexivity]));
    unfold iadd, isub, imul.
  - destruct (fits_dec (signed t) (bits t) (mval a + mval b)).
    + left. split; [tauto|]. now apply arith_signed_ok.
    + right. split; [tauto|]. now apply arith_signed_ub.
  - destruct (fits_dec (signed t) (bits t) (mval a - mval b)).
    + left. split; [tauto|]. now apply arith_signed_ok.
    + right. split; [tauto|]. now apply arith_signed_ub.
  - destruct (fits_dec (signed t) (bits t) (mval a * mval b)).
    + left. split; [tauto|]. now apply arith_signed_ok.
    + right. split; [tauto|]. now apply arith_signed_ub.
Qed.

Lemma ieval_unsigned t e :
  signed t = false -> lits_fit (signed t) (bits t) e -> ieval t e = Ok (mval e mod 2 ^ bits t).
Proof.
  intros Hs. assert (2 ^ bits t <> 0) as Hm by (destruct t; discriminate).
  induction e as [z|a IHa b IHb|a IHa b IHb|a IHa b IHb]; cbn [lits_fit ieval mval].
  - rewrite Hs. intros H. f_equal. symmetry. apply Z.mod_small. exact H.
  - intros [Ha Hb]. rewrite IHa, IHb by assumption. cbn [bind]. unfold iadd. rewrite arith_unsigned by assumption.
    f_equal. now rewrite <- Z.add_mod.
  - intros [Ha Hb]. rewrite IHa, IHb by assumption. cbn [bind]. unfold isub. rewrite arith_unsigned by assumption.
    f_equal. now rewrite <- Zminus_mod.
  - intros [Ha Hb]. rewrite IHa, IHb by assumption. cbn [bind]. unfold imul. rewrite arith_unsigned by assumption.
    f_equal. now rewrite <- Z.mul_mod.
Qed.

(** Division *)
Lemma quot_fits t x y :
  inr t x = true -> inr t y = true -> y <> 0 ->
  ~ (signed t = true /\ x = - 2 ^ (bits t - 1) /\ y = -1) -> inr t (Z.quot x y) = true.
Proof.
  intros Hx Hy H0 Hn. unfold inr in *.
  assert (signed t = true -> x <> tmin t \/ y <> -1) as Hn'.
  { intros Hs. destruct (Z.eq_dec x (tmin t)), (Z.eq_dec y (-1)); auto. exfalso. apply Hn.
    repeat split; auto. subst x. destruct t; try discriminate; reflexivity. }
  clear Hn. 
  assert (x = y * Z.quot x y + Z.rem x y) as E by (apply Z.quot_rem'; auto).
  assert (Z.abs (Z.rem x y) < Z.abs y) as R by (apply Z.rem_bound_abs; auto).
  assert (0 <= Z.rem x y * x) as S by (apply Z.rem_sign_mul; auto).
  assert (0 <= Z.abs y * Z.abs (Z.quot x y) <= Z.abs x) as B0.
  { rewrite <- Z.quot_abs by assumption. apply Z.mul_quot_le; lia. }
  assert (0 <= x -> 0 < y -> 0 <= Z.quot x y) as Q0 by (intros; apply Z.quot_pos; lia).
  set (q := Z.quot x y) in *. set (r := Z.rem x y) in *. clearbody q r.
  assert (Z.abs q <= Z.abs x) as B by nia.
  destruct t; simpl in *; lia.
Qed.


Lemma trap_quot t x y : trap t x y -> inr t (Z.quot x y) = false.
Proof. intros (Hs & -> & ->). destruct t; try discriminate; reflexivity. Qed.

Lemma idiv_imod_ok c t x y :
  fits (signed t) (bits t) x -> fits (signed t) (bits t) y -> y <> 0 -> ~ trap t x y ->
  exists q r, idiv c t x y = Ok q /\ imod c t x y = Ok r /\
    x = q * y + r /\ Z.abs r < Z.abs y /\ 0 <= r * x /\ fits (signed t) (bits t) q /\ fits (signed t) (bits t) r.
Proof.
  intros Hx Hy H0 Hn. rewrite <- !inr_fits in *.
  pose proof (quot_fits t x y Hx Hy H0 Hn) as Hq.
  unfold idiv, imod. replace (y =? 0) with false by lia. simpl negb. rewrite check_debug_true. cbn [bind].
  rewrite Hq. exists (Z.quot x y), (Z.rem x y). 
  assert (x = y * Z.quot x y + Z.rem x y) as E by (apply Z.quot_rem'; auto).
  assert (Z.abs (Z.rem x y) < Z.abs y) as R by (apply Z.rem_bound_abs; auto).
  assert (0 <= Z.rem x y * x) as S by (apply Z.rem_sign_mul; auto).
  do 4 (split; [first [reflexivity|assumption|lia]|]). split; [assumption|].
  split; apply inr_fits; [exact Hq|]. unfold inr in *. destruct t; simpl in *; nia.
Qed.

Lemma idiv_zero c t x : checked c = true -> idiv c t x 0 = Fail (report c) /\ imod c t x 0 = Fail (report c).
Proof. intros H. unfold idiv, imod. simpl negb. rewrite check_debug_false by assumption. now split. Qed.
Lemma idiv_zero_unchecked c t x : checked c = false -> idiv c t x 0 = UB /\ imod c t x 0 = UB.
Proof.
  intros H. unfold idiv, imod. simpl negb.
  destruct (check_debug_cases c false) as [[E _]|[_ [_ E]]]; [|congruence]. rewrite E. now split.
Qed.
Lemma idiv_trap c t x y : trap t x y -> idiv c t x y = UB /\ imod c t x y = UB.
Proof.
  intros H. pose proof (trap_quot t x y H) as E. destruct H as (_ & _ & ->). unfold idiv, imod.
  simpl negb. rewrite check_debug_true, E. now split.
Qed.

(** Shifts *)
Lemma ishl_ok c t x y :
  fits (signed t) (bits t) x -> 0 <= x -> 0 <= y < bits t ->
  exists r k, ishl c t x y = Ok r /\ fits (signed t) (bits t) r /\ r = x * 2 ^ y + k * 2 ^ bits t.
Proof.
  intros Hx H0 Hy. unfold ishl. replace (-1 <? x) with true by lia. replace (-1 <? y) with true by lia.
  replace ((y <? 0) || (bits t <=? y)) with false by lia.
  destruct (wrap_cong t (x * 2 ^ y)) as [k Hk].
  exists (wrap t (x * 2 ^ y)), k. split; [|split; [apply wrap_fits|exact Hk]].
  destruct (signed t); rewrite ?check_debug_true; reflexivity.
Qed.
Lemma ishl_exact c t x y :
  0 <= x -> 0 <= y < bits t -> fits (signed t) (bits t) (x * 2 ^ y) -> ishl c t x y = Ok (x * 2 ^ y).
Proof.
  intros H0 Hy Hf. unfold ishl. replace (-1 <? x) with true by lia. replace (-1 <? y) with true by lia.
  replace ((y <? 0) || (bits t <=? y)) with false by lia. rewrite wrap_id by assumption.
  destruct (signed t); rewrite ?check_debug_true; reflexivity.
Qed.
Lemma ishr_ok c t x y :
  0 <= x -> 0 <= y < bits t -> ishr c t x y = Ok (x / 2 ^ y).
Proof.
  intros H0 Hy. unfold ishr. replace (-1 <? x) with true by lia. replace (-1 <? y) with true by lia.
  replace ((y <? 0) || (bits t <=? y)) with false by lia.
  destruct (signed t); rewrite ?check_debug_true; reflexivity.
Qed.
Lemma shift_neg c t x y :
  signed t = true -> checked c = true -> x < 0 \/ y < 0 ->
  ishl c t x y = Fail (report c) /\ ishr c t x y = Fail (report c).
Proof.
  intros Hs Hc Hn. unfold ishl, ishr. rewrite Hs.
  destruct (Z.ltb_spec (-1) x).
  - rewrite check_debug_true. cbn [bind]. replace (-1 <? y) with false by lia.
    rewrite check_debug_false by assumption. now split.
  - rewrite check_debug_false by assumption. now split.
Qed.
Lemma shift_wide c t x y :
  0 <= x -> bits t <= y -> ishl c t x y = UB /\ ishr c t x y = UB.
Proof.
  intros H0 Hy. unfold ishl, ishr. assert (0 < bits t) by (destruct t; reflexivity).
  replace (-1 <? x) with true by lia. replace (-1 <? y) with true by lia.
  replace ((y <? 0) || (bits t <=? y)) with true by lia.
  destruct (signed t); rewrite ?check_debug_true; now split.
Qed.

(** Casts *)
Lemma icast_id t x : fits (signed t) (bits t) x -> icast t x = x.
Proof. apply wrap_id. Qed.
Lemma icast_spec t x :
  fits (signed t) (bits t) (icast t x) /\ exists k, icast t x = x + k * 2 ^ bits t.
Proof. split; [apply wrap_fits|apply wrap_cong]. Qed.
