(** Proofs about reading arrays. *)
From Verif Require Import Base.Outcome Base.ZList Model.IntModel Model.Index Model.Array1D Model.Array2D Model.ArrayIO.
From Verif Require Import Spec.ArraySpec Spec.MatrixSpec Spec.Shape2Spec Spec.IOSpec Proofs.Array1DProofs Proofs.Array1DThms Proofs.MatrixProofs Proofs.Array2DThms.
From Coq Require Import ZifyBool ZifyNat.


Lemma always_loud c : loud c = true -> check_always c false = Fail (report c).
Proof. unfold loud, check_always, report. destruct (exc c), (ndbg c); cbn; congruence. Qed.
Lemma always_silent c : loud c = false -> check_always c false = Ok tt.
Proof. unfold loud, check_always. destruct (exc c), (ndbg c); cbn; congruence. Qed.

Section S.
Context {V : Type} (zero : V).
Implicit Types (a : arr V) (l : list V).

(** The first elements of the buffer are [l]. *)
Definition starts a l : Prop := an a = zlen (buf a) /\ zlen l <= zlen (buf a) /\ forall i, 0 <= i < zlen l -> znth (buf a) i = znth l i.

Lemma resize_starts c a l n : starts a l -> 0 <= n <= amax c -> zlen l <= n ->
  exists a', arr_resize zero c n true a = Ok a' /\ an a' = n /\ starts a' l.
Proof.
  intros (H1 & H2 & H3) Hn Hl. destruct (resize_thm zero c a (buf a) n) as (a' & E & E1 & E2 & E3 & _); [now split|auto|].
  exists a'. split; [exact E|]. split; [exact E1|]. split; [lia|]. split; [lia|].
  intros i Hi. rewrite E3 by lia. now apply H3.
Qed.

Lemma loop_ok c toks : 0 <= amax c < two62 -> forall a l, starts a l -> zlen l < an a -> an a <= amax c ->
  (exists a', read_loop zero c toks a (zlen l) = Ok (a', zlen l + zlen toks) /\ starts a' (l ++ toks) /\ zlen l + zlen toks < an a' /\ an a' <= amax c) \/
  (read_loop zero c toks a (zlen l) = Fail BadAlloc /\ amax c < 2 * (zlen l + zlen toks)).
Proof.
  intros Hc. induction toks as [|x toks IH]; intros a l Hs Hl Ha.
  - left. exists a. cbn [read_loop]. rewrite app_nil_r. change (zlen (@nil V)) with 0. rewrite Z.add_0_r. auto.
  - pose proof (zlen_nonneg l) as Pl. pose proof (zlen_nonneg toks) as Pt. destruct Hs as (H1 & H2 & H3). cbn [read_loop].
    rewrite oset_ok by lia. cbn [bind]. rewrite ladd_ok by (unfold LONG_MIN, LONG_MAX, two62 in *; lia). cbn [bind].
    set (a1 := mkarr (zupd (buf a) (zlen l) x) (an a)).
    assert (L1 : zlen (l ++ [x]) = zlen l + 1) by (rewrite zlen_app; reflexivity).
    assert (S1 : starts a1 (l ++ [x])).
    { unfold starts, a1. cbn [an buf]. rewrite zlen_zupd, L1. split; [lia|]. split; [lia|]. intros i Hi.
      rewrite znth_zupd by lia. rewrite znth_app by lia. destruct (Z.eqb_spec i (zlen l)) as [->|Hne].
      - replace (zlen l <? zlen l) with false by lia. now rewrite Z.sub_diag.
      - replace (i <? zlen l) with true by lia. apply H3. lia. }
    assert (LT : zlen (x :: toks) = 1 + zlen toks) by (rewrite zlen_cons; lia).
    assert (App : l ++ x :: toks = (l ++ [x]) ++ toks) by (now rewrite <- app_assoc).
    rewrite LT, App. replace (zlen l + (1 + zlen toks)) with (zlen (l ++ [x]) + zlen toks) by lia. rewrite <- L1.
    destruct (Z.eqb_spec (an a) (zlen (l ++ [x]))) as [Hfull|Hnf].
    + rewrite lmul_ok by (unfold LONG_MIN, LONG_MAX, two62 in *; lia). cbn [bind].
      destruct (Z_le_gt_dec (2 * zlen (l ++ [x])) (amax c)) as [Hm|Hm].
      * destruct (resize_starts c a1 (l ++ [x]) (2 * zlen (l ++ [x]))) as (a2 & E2 & N2 & S2); [auto|lia|lia|].
        fold a1. rewrite E2. cbn [bind]. apply IH; auto; lia.
      * right. split; [|lia]. fold a1. unfold arr_resize. 
        replace (-1 <? 2 * zlen (l ++ [x])) with true by lia. rewrite check_debug_true. cbn [bind].
        replace (2 * zlen (l ++ [x]) =? an a1) with false by (unfold a1; cbn [an]; lia).
        unfold arr_new. replace (-1 <? 2 * zlen (l ++ [x])) with true by lia. rewrite check_debug_true. cbn [bind].
        replace (2 * zlen (l ++ [x]) =? 0) with false by lia. unfold alloc.
        replace (amax c <? 2 * zlen (l ++ [x])) with true by lia. rewrite orb_true_r. reflexivity.
    + cbn [bind]. fold a1. apply IH; auto; unfold a1; cbn [an]; lia.
Qed.

(** All or nothing: the target is the whole sequence of values, or the call fails and the target is as before. *)
Lemma read1_cases c toks e A : 8 <= amax c < two62 ->
  (exists A', read1 zero c toks e A = MOk A' /\ rep A' toks /\ (e = true \/ loud c = false)) \/
  (read1 zero c toks e A = MFail (report c) A /\ e = false /\ loud c = true) \/
  (read1 zero c toks e A = MFail BadAlloc A /\ amax c < 2 * zlen toks).
Proof.
  intros Hc. unfold read1. pose proof (zlen_nonneg toks) as Pt.
  assert (exists t0, arr_new zero c 8 = Ok t0 /\ an t0 = 8 /\ starts t0 []) as (t0 & E0 & N0 & S0).
  { unfold arr_new, alloc. change (-1 <? 8) with true. rewrite check_debug_true. cbn [bind Z.eqb Pos.eqb].
    replace ((8 <? 0) || (amax c <? 8)) with false by lia. cbn [bind]. eexists. split; [reflexivity|].
    unfold starts. cbn [an buf]. change (zlen (@nil V)) with 0. change (zlen (repeat zero (Z.to_nat 8))) with 8.
    repeat split; lia. }
  rewrite E0. cbn [bind].
  destruct (loop_ok c toks ltac:(lia) t0 [] S0) as [(a & E & S & L & LA)|(E & HM)].
  - change (zlen (@nil V)) with 0. lia.
  - lia.
  - change (zlen (@nil V)) with 0 in *. rewrite E. cbn [bind fst snd]. rewrite Z.add_0_l in *. cbn [app] in S.
    destruct (resize_starts c a toks (zlen toks) S) as (a' & E' & N' & S'); [lia|lia|].
    assert (rep a' toks).
    { destruct S' as (P1 & P2 & P3). split; [|lia]. apply list_ext_zlen; [lia|]. intros i Hi. apply P3. lia. }
    destruct e.
    + rewrite check_always_true. cbn [bind]. rewrite E'. left. exists a'. cbn [bind commit arr_swap fst]. auto.
    + destruct (loud c) eqn:Hl.
      * rewrite always_loud by auto. right; left. auto.
      * rewrite always_silent by auto. cbn [bind]. rewrite E'. left. exists a'. cbn [bind commit arr_swap fst]. auto.
  - right; right. change (zlen (@nil V)) with 0 in *. rewrite E. split; [reflexivity|]. lia.
Qed.
Theorem read1_ok c toks A : 8 <= amax c < two62 -> 2 * zlen toks <= amax c ->
  exists A', read1 zero c toks true A = MOk A' /\ rep A' toks.
Proof. intros Hc Hm. destruct (read1_cases c toks true A Hc) as [(A' & E & R & _)|[(_ & [=] & _)|(_ & H)]]; [eauto|lia]. Qed.
Theorem read1_bad c toks A : 8 <= amax c < two62 -> 2 * zlen toks <= amax c -> loud c = true ->
  read1 zero c toks false A = MFail (report c) A.
Proof. intros Hc Hm Hl. destruct (read1_cases c toks false A Hc) as [(A' & E & R & [[=]|H])|[(E & _)|(_ & H)]]; [congruence|exact E|lia]. Qed.
End S.

(** ** Two dimensions *)
Section T.
Context {V : Type} (zero : V).
Implicit Types (a : arr2 V) (L : list (line V)).

(** Shape m x n; the first k rows are the rows of M and the first p elements of row k those of r. *)
Definition filled a (m n : Z) (M : list (list V)) (r : list V) : Prop :=
  sound2 a /\ drows a = m /\ dcols a = n /\
  (forall i j, 0 <= i < zlen M -> 0 <= j < n -> elem a i j = mget M i j) /\
  (forall j, 0 <= j < zlen r -> j < n -> elem a (zlen M) j = znth r j).

Lemma filled_resize c a m n M m' : cfg_ok c -> filled a m n M [] -> 0 < n -> zlen M <= m -> 0 < m' -> m * n <= amax c -> m' * n <= amax c -> zlen M <= m' ->
  exists a', arr2_resize zero c m' n true a = Ok a' /\ filled a' m' n M [].
Proof.
  intros Hc (Hs & Hm & Hn & H1 & H2) Pn Pk Pm HA HA' Hk.
  destruct (resize2_thm zero c a m' n) as (a' & E & S & Em & En & F); auto; try lia; [unfold fits2; rewrite Hm, Hn; lia|].
  exists a'. split; [exact E|]. split; [exact S|]. split; [exact Em|]. split; [exact En|]. split.
  - intros i j Hi Hj. rewrite F by lia. replace ((i <? drows a) && (j <? dcols a)) with true by lia. now apply H1.
  - intros j Hj. change (zlen (@nil V)) with 0 in Hj. lia.
Qed.

Lemma filled_write c a m n M r x : cfg_ok c -> filled a m n M r -> zlen M < m -> zlen r < n -> m * n <= amax c ->
  exists a', arr2_write c (Plain (zlen M)) (Plain (zlen r)) x a = Ok a' /\ filled a' m n M (r ++ [x]).
Proof.
  intros Hc (Hs & Hm & Hn & H1 & H2) Hk Hr HA. pose proof (zlen_nonneg M). pose proof (zlen_nonneg r).
  destruct (write2_thm c a (zlen M) (zlen r) x) as (a' & E & S & Em & En & F); auto.
  - unfold fits2. now rewrite Hm, Hn.
  - unfold inside. lia.
  - exists a'. split; [exact E|]. split; [exact S|]. split; [lia|]. split; [lia|]. split.
    + intros i j Hi Hj. rewrite F by (unfold inside; lia). replace (i =? zlen M) with false by lia. cbn [andb]. now apply H1.
    + intros j Hj Hj'. rewrite zlen_app in Hj. change (zlen [x]) with 1 in Hj. rewrite F by (unfold inside; lia).
      rewrite Z.eqb_refl. cbn [andb]. rewrite znth_app by lia. destruct (Z.eqb_spec j (zlen r)) as [->|Hne].
      * replace (zlen r <? zlen r) with false by lia. now rewrite Z.sub_diag.
      * replace (j <? zlen r) with true by lia. apply H2; lia.
Qed.
(** The row is complete. *)
Lemma filled_next a m n M r : filled a m n M r -> zlen r = n -> filled a m n (M ++ [r]) [].
Proof.
  intros (Hs & Hm & Hn & H1 & H2) Hr. pose proof (zlen_nonneg M). split; [exact Hs|]. split; [exact Hm|]. split; [exact Hn|]. split.
  - intros i j Hi Hj. rewrite zlen_app in Hi. change (zlen [r]) with 1 in Hi. unfold mget. rewrite znth_app by lia.
    destruct (Z.ltb_spec i (zlen M)).
    + now apply H1; try lia.
    + assert (i = zlen M) by lia. subst i. rewrite Z.sub_diag. cbn. apply H2; lia.
  - intros j Hj. change (zlen (@nil V)) with 0 in Hj. lia.
Qed.

Lemma row_ok c m n M : cfg_ok c -> zlen M < m -> m * n <= amax c -> forall toks a r, filled a m n M r -> zlen r + zlen toks <= n ->
  exists a', row_loop c (zlen M) toks a (zlen r) = Ok (a', zlen r + zlen toks) /\ filled a' m n M (r ++ toks).
Proof.
  intros Hc Hk HA. pose proof (zlen_nonneg M) as PM. induction toks as [|x toks IH]; intros a r Hf Hl.
  - exists a. cbn [row_loop]. rewrite app_nil_r. change (zlen (@nil V)) with 0. now rewrite Z.add_0_r.
  - rewrite zlen_cons in Hl. pose proof (zlen_nonneg r). pose proof (zlen_nonneg toks). cbn [row_loop].
    destruct (filled_write c a m n M r x) as (a1 & E1 & F1); auto; [lia|]. rewrite E1. cbn [bind].
    assert (n <= amax c) by nia. unfold cfg_ok in Hc. rewrite ladd_ok by (unfold LONG_MIN, LONG_MAX in *; lia). cbn [bind].
    assert (L1 : zlen (r ++ [x]) = zlen r + 1) by (rewrite zlen_app; reflexivity).
    destruct (IH a1 (r ++ [x])) as (a2 & E2 & F2); [auto|lia|]. exists a2. rewrite L1 in E2. rewrite E2. rewrite zlen_cons.
    rewrite <- app_assoc in F2. cbn [app] in F2. split; [f_equal; f_equal; lia|exact F2].
Qed.
(** Past the end of the row, checked. *)
Lemma row_long_checked c m n M toks a : cfg_ok c -> zlen M < m -> m * n <= amax c -> filled a m n M [] -> 0 < n -> n < zlen toks -> checked c = true ->
  row_loop c (zlen M) toks a 0 = Fail (report c).
Proof.
  intros Hc Hk HA Hf Pn Hl HC. pose proof (zlen_nonneg M) as PM.
  set (t1 := firstn (Z.to_nat n) toks). set (t2 := skipn (Z.to_nat n) toks).
  assert (zlen t1 = n) as Z1 by (apply zlen_firstn; lia).
  assert (ET : toks = t1 ++ t2) by (symmetry; apply firstn_skipn).
  assert (Split : forall t u a k, row_loop c (zlen M) (t ++ u) a k = (' s <- row_loop c (zlen M) t a k ;; row_loop c (zlen M) u (fst s) (snd s))).
  { clear. induction t as [|x t IH]; intros u a k; [reflexivity|]. cbn [app row_loop].
    destruct (arr2_write c (Plain (zlen M)) (Plain k) x a); [|reflexivity..]. cbn [bind]. destruct (ladd k 1); [|reflexivity..]. cbn [bind]. apply IH. }
  rewrite ET, Split. destruct (row_ok c m n M Hc Hk HA t1 a [] Hf) as (a1 & E1 & F1); [change (zlen (@nil V)) with 0; lia|].
  change (zlen (@nil V)) with 0 in E1. rewrite E1. cbn [bind fst snd].
  clearbody t1 t2. destruct t2 as [|x t2]; [rewrite app_nil_r in ET; subst; lia|].
  cbn [row_loop]. destruct F1 as (Hs & Hm & Hn & _).
  destruct (outside2_thm c a1 (Plain (zlen M)) (Plain (0 + zlen t1))) as [_ HO]; auto.
  - unfold fits2. rewrite Hm, Hn. lia.
  - unfold cfg_ok in Hc. cbn. unfold is_long, LONG_MIN, LONG_MAX in *. nia.
  - unfold cfg_ok in Hc. cbn. unfold is_long, LONG_MIN, LONG_MAX in *. nia.
  - cbn [denotes]. unfold inside. lia.
  - destruct (HO HC) as [_ ->]. reflexivity.
Qed.
(** Past the end of the row, checks compiled out. *)
Lemma row_long_unchecked c m n k : cfg_ok c -> 0 <= k -> 0 < n -> m * n <= amax c -> checked c = false -> forall toks a j, sound2 a -> drows a = m -> dcols a = n -> 0 <= j ->
  (k * n + j + zlen toks <= m * n -> exists a', row_loop c k toks a j = Ok (a', j + zlen toks) /\ sound2 a' /\ drows a' = m /\ dcols a' = n) /\
  (k * n + j <= m * n -> m * n < k * n + j + zlen toks -> row_loop c k toks a j = UB).
Proof.
  intros Hc Pk Pn HA HC. induction toks as [|x toks IH]; intros a j Hs Hm Hn Pj.
  - change (zlen (@nil V)) with 0. cbn [row_loop]. split; [|lia]. intros. exists a. now rewrite Z.add_0_r.
  - rewrite zlen_cons. pose proof (zlen_nonneg toks). cbn [row_loop].
    assert (CD : forall b, check_debug c (Ok b) = Ok tt).
    { intros [|]; [apply check_debug_true|]. destruct (check_debug_cases c false) as [(-> & [Hx|Hx])|(-> & _ & Hx)]; congruence. }
    assert (W : 0 <= k * n + j -> arr2_write c (Plain k) (Plain j) x a =
      b <- set2 (dcols a) (buf (dat a)) k j x ;; Ok (mkarr2 (drows a) (dcols a) (mkarr b (an (dat a))))).
    { intros. unfold arr2_write. cbn [idx_get bind]. rewrite CD. reflexivity. }
    rewrite W by nia. unfold set2. unfold cfg_ok in Hc. rewrite Hn.
    pose proof Hs as (H1 & H2 & H3 & H4 & H5). rewrite Hm, Hn in H4, H5.
    split; intros HL.
    + rewrite lmul_ok by (unfold LONG_MIN, LONG_MAX in *; nia). cbn [bind]. rewrite ladd_ok by (unfold LONG_MIN, LONG_MAX in *; nia). cbn [bind].
      rewrite oset_ok by nia. cbn [bind]. rewrite ladd_ok by (unfold LONG_MIN, LONG_MAX in *; nia). cbn [bind].
      destruct (IH (mkarr2 (drows a) n (mkarr (zupd (buf (dat a)) (k * n + j) x) (an (dat a)))) (j + 1)) as [I _]; cbn [drows dcols]; auto; try lia.
      * unfold sound2 in *. cbn [drows dcols dat buf an]. rewrite zlen_zupd. rewrite Hm in *. rewrite Hn in *. repeat split; try lia; tauto.
      * destruct I as (a' & E & S); [lia|]. exists a'. rewrite E. split; [f_equal; f_equal; lia|exact S].
    + intros HU. rewrite lmul_ok by (unfold LONG_MIN, LONG_MAX in *; nia). cbn [bind]. rewrite ladd_ok by (unfold LONG_MIN, LONG_MAX in *; nia). cbn [bind].
      destruct (Z.eq_dec (k * n + j) (m * n)) as [He|He].
      * unfold oset. replace ((0 <=? k * n + j) && (k * n + j <? zlen (buf (dat a)))) with false by lia. reflexivity.
      * rewrite oset_ok by nia. cbn [bind]. rewrite ladd_ok by (unfold LONG_MIN, LONG_MAX in *; nia). cbn [bind].
        destruct (IH (mkarr2 (drows a) n (mkarr (zupd (buf (dat a)) (k * n + j) x) (an (dat a)))) (j + 1)) as [_ I]; cbn [drows dcols]; auto; try lia.
        -- unfold sound2 in *. cbn [drows dcols dat buf an]. rewrite zlen_zupd. rewrite Hm in *. rewrite Hn in *. repeat split; try lia; tauto.
        -- apply I; lia.
Qed.

Lemma get_row_ok c m n M l a : cfg_ok c -> zlen M < m -> 0 < n -> m * n <= amax c -> filled a m n M [] -> zlen (ltoks l) = n -> leof l = true ->
  exists a', get_row c (ltoks l) (leof l) (zlen M) a = Ok a' /\ filled a' m n (M ++ [ltoks l]) [].
Proof.
  intros Hc Hk Pn HA Hf Hl He. unfold get_row.
  destruct (row_ok c m n M Hc Hk HA (ltoks l) a [] Hf) as (a1 & E1 & F1); [change (zlen (@nil V)) with 0; lia|].
  change (zlen (@nil V)) with 0 in E1. rewrite E1. cbn [bind fst snd]. cbn [app] in F1. pose proof F1 as (_ & _ & Hn & _).
  rewrite Hn, Hl, He. replace (0 + n =? n) with true by lia. rewrite check_always_true. cbn [bind]. exists a1. split; [reflexivity|].
  now apply filled_next.
Qed.
(** A short row, or a complete one followed by something else. *)
Lemma get_row_short c m n M l a : cfg_ok c -> zlen M < m -> 0 < n -> m * n <= amax c -> filled a m n M [] -> loud c = true ->
  zlen (ltoks l) < n \/ (zlen (ltoks l) = n /\ leof l = false) -> get_row c (ltoks l) (leof l) (zlen M) a = Fail (report c).
Proof.
  intros Hc Hk Pn HA Hf Hl HB. unfold get_row.
  destruct (row_ok c m n M Hc Hk HA (ltoks l) a [] Hf) as (a1 & E1 & F1); [change (zlen (@nil V)) with 0; lia|].
  change (zlen (@nil V)) with 0 in E1. rewrite E1. cbn [bind fst snd]. pose proof F1 as (_ & _ & Hn & _).
  rewrite Hn. destruct HB as [HB|[HB HB2]].
  - replace (0 + zlen (ltoks l) =? n) with false by lia. rewrite always_loud by auto. reflexivity.
  - replace (0 + zlen (ltoks l) =? n) with true by lia. rewrite HB2, check_always_true. cbn [bind]. rewrite always_loud by auto. reflexivity.
Qed.
Lemma get_row_long c m n M l a : cfg_ok c -> zlen M < m -> 0 < n -> m * n <= amax c -> filled a m n M [] -> loud c = true -> n < zlen (ltoks l) ->
  get_row c (ltoks l) (leof l) (zlen M) a = if dbg c then Fail (report c) else if (m - zlen M) * n <? zlen (ltoks l) then UB else Fail (report c).
Proof.
  intros Hc Hk Pn HA Hf Hl HB. unfold get_row. pose proof (zlen_nonneg M). destruct (dbg c) eqn:HD.
  - rewrite (row_long_checked c m n) by (auto; unfold checked, loud in *; rewrite HD; auto). reflexivity.
  - pose proof Hf as (Hs & Hm & Hn & _).
    destruct (row_long_unchecked c m n (zlen M) Hc ltac:(lia) Pn HA ltac:(unfold checked; now rewrite HD) (ltoks l) a 0) as [U1 U2]; auto; [lia|].
    destruct (Z.ltb_spec ((m - zlen M) * n) (zlen (ltoks l))).
    + rewrite U2 by nia. reflexivity.
    + destruct U1 as (a1 & -> & _ & _ & Hn1); [nia|]. cbn [bind fst snd]. rewrite Hn1.
      replace (0 + zlen (ltoks l) =? n) with false by lia. rewrite always_loud by auto. reflexivity.
Qed.

Lemma capacity_bounds k : 1 <= k -> k < capacity k <= 2 * k.
Proof.
  intros H. unfold capacity. pose proof (Z.log2_spec k ltac:(lia)) as [A B]. rewrite Z.pow_succ_r in B by apply Z.log2_nonneg. lia.
Qed.
Lemma capacity_next k : 1 <= k -> capacity (k + 1) = if capacity k =? k + 1 then 2 * (k + 1) else capacity k.
Proof.
  intros H. unfold capacity. pose proof (Z.log2_nonneg k) as P. pose proof (Z.log2_spec k ltac:(lia)) as [A B].
  rewrite Z.pow_succ_r in B by lia. destruct (Z.eqb_spec (2 * 2 ^ Z.log2 k) (k + 1)) as [E|E].
  - f_equal. rewrite <- E. rewrite Z.log2_double by (apply Z.pow_pos_nonneg; lia). rewrite Z.log2_pow2 by lia. rewrite Z.pow_succ_r by lia. reflexivity.
  - f_equal. f_equal. apply Z.log2_unique; [lia|]. rewrite Z.pow_succ_r by lia. lia.
Qed.

Lemma rows_cons (l : line V) L : rows (l :: L) = if lempty l then rows L else ltoks l :: rows L.
Proof. unfold rows. cbn [filter]. destruct (lempty l); reflexivity. Qed.

Lemma next_ok c n L L2 : cfg_ok c -> 0 < n -> rows_or_empty n L -> forall a M, 1 <= zlen M -> filled a (capacity (zlen M)) n M [] ->
  2 * (zlen M + zlen (rows L)) * n <= amax c ->
  exists a', next_rows zero c n (L ++ L2) a (zlen M) = next_rows zero c n L2 a' (zlen (M ++ rows L)) /\
    filled a' (capacity (zlen (M ++ rows L))) n (M ++ rows L) [].
Proof.
  intros Hc Pn HL. induction L as [|l L IH]; intros a M PM Hf HA.
  - exists a. cbn. rewrite app_nil_r. auto.
  - inversion HL as [|? ? Hl HL']; subst. rewrite rows_cons in *. cbn [app next_rows]. unfold skipped in Hl. destruct (lempty l) eqn:He.
    + now apply IH.
    + destruct Hl as [Hl|(_ & Hl1 & Hl2)]; [discriminate|]. rewrite zlen_cons in HA. pose proof (zlen_nonneg (rows L)) as PR.
      pose proof (capacity_bounds (zlen M) PM) as CB.
      assert (HA1 : capacity (zlen M) * n <= amax c) by nia.
      destruct (get_row_ok c (capacity (zlen M)) n M l a) as (a1 & E1 & F1); auto; [lia|]. rewrite E1. cbn [bind].
      unfold cfg_ok in Hc. assert (zlen M + 1 <= LONG_MAX) by nia.
      rewrite ladd_ok by (unfold LONG_MIN, LONG_MAX in *; lia). cbn [bind].
      assert (L1 : zlen (M ++ [ltoks l]) = zlen M + 1) by (rewrite zlen_app; reflexivity).
      replace (M ++ ltoks l :: rows L) with ((M ++ [ltoks l]) ++ rows L) by (now rewrite <- app_assoc).
      pose proof F1 as (_ & Hm & _). rewrite Hm. pose proof (capacity_next (zlen M) PM) as CN.
      destruct (Z.eqb_spec (capacity (zlen M)) (zlen M + 1)) as [Heq|Hne].
      * rewrite lmul_ok by (unfold LONG_MIN, LONG_MAX in *; nia). cbn [bind].
        destruct (filled_resize c a1 (capacity (zlen M)) n (M ++ [ltoks l]) (2 * (zlen M + 1))) as (a2 & E2 & F2); auto; try nia.
        rewrite E2. cbn [bind]. rewrite <- L1. apply IH; auto; try lia. rewrite L1, CN. exact F2.
      * cbn [bind]. rewrite <- L1. apply IH; auto; try lia. rewrite L1, CN. exact F1.
Qed.

(** First row. *)
Lemma first_resize c a n r n' : cfg_ok c -> filled a 1 n [] r -> 0 < n -> n <= amax c -> zlen r <= n -> 0 < n' -> n' <= amax c -> zlen r <= n' ->
  exists a', arr2_resize zero c 1 n' true a = Ok a' /\ filled a' 1 n' [] r.
Proof.
  intros Hc (Hs & Hm & Hn & _ & H2) P HA Hr P' HA' Hr'.
  destruct (resize2_thm zero c a 1 n') as (a' & E & S & Em & En & F); auto; try lia; [unfold fits2; rewrite Hm, Hn; lia|].
  exists a'. split; [exact E|]. split; [exact S|]. split; [exact Em|]. split; [exact En|]. split.
  - intros i j Hi. change (zlen (@nil (list V))) with 0 in Hi. lia.
  - intros j Hj Hj'. change (zlen (@nil (list V))) with 0 in *. rewrite F by lia. replace ((0 <? drows a) && (j <? dcols a)) with true by lia.
    apply H2; lia.
Qed.
Lemma first_loop_ok c toks : cfg_ok c -> forall a n r, filled a 1 n [] r -> zlen r < n -> n <= amax c -> 2 * (zlen r + zlen toks) <= amax c ->
  exists a' n', first_loop zero c toks a (zlen r) = Ok (a', zlen r + zlen toks) /\ filled a' 1 n' [] (r ++ toks) /\ zlen r + zlen toks < n' <= amax c.
Proof.
  intros Hc. induction toks as [|x toks IH]; intros a n r Hf Hr HA HM.
  - exists a, n. cbn [first_loop]. change (zlen (@nil V)) with 0 in *. rewrite Z.add_0_r, app_nil_r. auto with zarith.
  - rewrite zlen_cons in HM. pose proof (zlen_nonneg r) as Pr. pose proof (zlen_nonneg toks) as Pt. cbn [first_loop].
    destruct (filled_write c a 1 n [] r x) as (a1 & E1 & F1); auto; try lia; [change (zlen (@nil (list V))) with 0; lia|].
    change (zlen (@nil (list V))) with 0 in E1. rewrite E1. cbn [bind]. unfold cfg_ok in Hc. rewrite ladd_ok by (unfold LONG_MIN, LONG_MAX in *; lia). cbn [bind].
    assert (L1 : zlen (r ++ [x]) = zlen r + 1) by (rewrite zlen_app; reflexivity). rewrite zlen_cons.
    replace (r ++ x :: toks) with ((r ++ [x]) ++ toks) by (now rewrite <- app_assoc).
    replace (zlen r + (1 + zlen toks)) with (zlen (r ++ [x]) + zlen toks) by lia. rewrite <- L1.
    pose proof F1 as (_ & _ & Hn & _). rewrite Hn. destruct (Z.eqb_spec n (zlen (r ++ [x]))) as [Heq|Hne].
    + rewrite lmul_ok by (unfold LONG_MIN, LONG_MAX in *; lia). cbn [bind].
      destruct (first_resize c a1 n (r ++ [x]) (2 * zlen (r ++ [x]))) as (a2 & E2 & F2); auto; try lia.
      rewrite E2. cbn [bind]. eapply IH; [exact F2| |..]; lia.
    + cbn [bind]. eapply IH; [exact F1| |..]; lia.
Qed.
Lemma first_start c a : cfg_ok c -> 4 <= amax c -> empty2 a -> exists a', arr2_resize zero c 1 4 true a = Ok a' /\ filled a' 1 4 [] [].
Proof.
  intros Hc HA (H1 & H2 & H3 & H4).
  destruct (resize2_thm zero c a 1 4) as (a' & E & S & Em & En & F); auto; try lia.
  - unfold sound2. rewrite H1, H2, H3, H4. cbn. lia.
  - unfold fits2. rewrite H1, H2. unfold cfg_ok in Hc. lia.
  - exists a'. split; [exact E|]. split; [exact S|]. split; [exact Em|]. split; [exact En|]. split; intros; exfalso; change (zlen (@nil V)) with 0 in *; change (zlen (@nil (list V))) with 0 in *; lia.
Qed.
Lemma empty_shape a : sound2 a -> drows a = 0 -> dcols a = 0 -> empty2 a.
Proof. intros (_ & _ & _ & H1 & H2) E1 E2. rewrite E1, E2 in *. cbn in *. repeat split; auto. destruct (buf (dat a)); [reflexivity|]. rewrite zlen_cons in H2. pose proof (zlen_nonneg l). lia. Qed.

Lemma get_first_ok c toks e a : cfg_ok c -> 4 <= amax c -> 2 * zlen toks <= amax c -> empty2 a ->
  exists a', get_first_row zero c toks e a = (check_always c e ;;; Ok a') /\
    if zlen toks =? 0 then empty2 a' else filled a' 1 (zlen toks) [toks] [].
Proof.
  intros Hc HA HM He. unfold get_first_row. destruct (first_start c a Hc HA He) as (a1 & E1 & F1). rewrite E1. cbn [bind].
  change 0 with (zlen (@nil V)) at 1.
  destruct (first_loop_ok c toks Hc a1 4 [] F1) as (a2 & n2 & E2 & F2 & B2); change (zlen (@nil V)) with 0 in *; try lia.
  rewrite E2. cbn [bind fst snd]. cbn [app] in F2. rewrite Z.add_0_l. pose proof (zlen_nonneg toks) as Pt.
  destruct (Z.eqb_spec (zlen toks) 0) as [Z0|NZ]; cbn [negb].
  - destruct F2 as (S & Hm & Hn & _). destruct (resize2_thm zero c a2 0 0) as (a3 & E3 & S3 & Em & En & _); auto; try lia.
    + unfold fits2. rewrite Hm, Hn. lia.
    + rewrite E3. cbn [bind]. exists a3. split; [reflexivity|]. now apply empty_shape.
  - destruct (first_resize c a2 n2 toks (zlen toks)) as (a3 & E3 & F3); auto; try lia.
    rewrite E3. cbn [bind]. exists a3. split; [reflexivity|]. now apply (filled_next a3 1 (zlen toks) [] toks).
Qed.
Lemma empty2_an a : empty2 a -> (an (dat a) =? 0) = true.
Proof. intros (_ & _ & -> & _). reflexivity. Qed.
Lemma filled_an a m n M : filled a m n M [] -> 0 < m -> 0 < n -> (an (dat a) =? 0) = false.
Proof. intros ((_ & _ & _ & H & _) & Hm & Hn & _) P1 P2. rewrite Hm, Hn in H. nia. Qed.

Lemma first_blank c B L : cfg_ok c -> 4 <= amax c -> Forall blank B -> forall a, empty2 a ->
  exists a', first_rows zero c (B ++ L) a = first_rows zero c L a' /\ empty2 a'.
Proof.
  intros Hc HA HB. induction B as [|l B IH]; intros a He; [exists a; auto|].
  inversion HB as [|? ? [Hl1 Hl2] HB']; subst. cbn [app]. destruct (get_first_ok c (ltoks l) (leof l) a) as (a1 & E1 & F1); auto.
  { rewrite Hl1. change (zlen (@nil V)) with 0. lia. }
  cbn [first_rows]. rewrite (empty2_an a He), E1. rewrite Hl2, check_always_true. cbn [bind]. rewrite Hl1 in F1. cbn in F1. now apply IH.
Qed.
Lemma empty2_new : empty2 (@arr2_empty V).
Proof. repeat split. Qed.

(** Everything up to the line after a valid beginning. *)
Lemma read2_prefix c B l L L2 A : cfg_ok c -> 4 <= amax c -> Forall blank B -> ltoks l <> [] -> leof l = true ->
  rows_or_empty (zlen (ltoks l)) L -> 2 * (1 + zlen (rows L)) * zlen (ltoks l) <= amax c ->
  exists a', filled a' (capacity (1 + zlen (rows L))) (zlen (ltoks l)) (ltoks l :: rows L) [] /\
    read2 zero c (B ++ l :: L ++ L2) A =
    commit A (' s <- next_rows zero c (zlen (ltoks l)) L2 a' (1 + zlen (rows L)) ;;
              r <- arr2_resize zero c (snd s) (zlen (ltoks l)) true (fst s) ;; Ok r).
Proof.
  intros Hc HA HB Hl He HL HM. set (n := zlen (ltoks l)) in *. pose proof (zlen_nonneg (rows L)) as PR.
  assert (Pn : 0 < n) by (unfold n; destruct (ltoks l); [congruence|rewrite zlen_cons; pose proof (zlen_nonneg l0); lia]).
  unfold read2. destruct (first_blank c B (l :: L ++ L2) Hc HA HB arr2_empty empty2_new) as (a0 & E0 & F0). rewrite E0.
  cbn [first_rows]. rewrite (empty2_an a0 F0).
  destruct (get_first_ok c (ltoks l) (leof l) a0 Hc HA ltac:(fold n; nia) F0) as (a1 & E1 & F1). rewrite E1, He, check_always_true. cbn [bind].
  fold n in F1. replace (n =? 0) with false in F1 by lia.
  assert (E2 : first_rows zero c (L ++ L2) a1 = Ok (a1, L ++ L2)).
  { pose proof (filled_an _ _ _ _ F1 ltac:(lia) Pn) as Q. destruct (L ++ L2); cbn [first_rows]; rewrite Q; reflexivity. }
  rewrite E2. cbn [bind fst snd]. rewrite (filled_an _ _ _ _ F1 ltac:(lia) Pn). cbn [negb].
  pose proof F1 as (_ & _ & Hn & _). rewrite Hn.
  destruct (filled_resize c a1 1 n [ltoks l] 2 Hc F1 Pn) as (a2 & E3 & F2); try (change (zlen [ltoks l]) with 1); try nia.
  rewrite E3. cbn [bind].
  destruct (next_ok c n L L2 Hc Pn HL a2 [ltoks l]) as (a3 & E4 & F3); try (change (zlen [ltoks l]) with 1); auto; try lia.
  change (zlen [ltoks l]) with 1 in E4. rewrite E4. exists a3. cbn [app] in F3. rewrite zlen_cons in F3.
  replace (zlen ([ltoks l] ++ rows L)) with (1 + zlen (rows L)) by (cbn [app]; rewrite zlen_cons; lia).
  split; [exact F3|].
  f_equal. destruct (next_rows zero c n L2 a3 (1 + zlen (rows L))) as [[s k]| |]; [|reflexivity..]. cbn [bind fst snd].
  destruct (arr2_resize zero c k n true s); reflexivity.
Qed.

Theorem read2_ok c B l L A : cfg_ok c -> 4 <= amax c -> Forall blank B -> ltoks l <> [] -> leof l = true ->
  rows_or_empty (zlen (ltoks l)) L -> 2 * (1 + zlen (rows L)) * zlen (ltoks l) <= amax c ->
  exists A', read2 zero c (B ++ l :: L) A = MOk A' /\ holds A' (1 + zlen (rows L)) (zlen (ltoks l)) (mget (ltoks l :: rows L)).
Proof.
  intros Hc HA HB Hl He HL HM. destruct (read2_prefix c B l L [] A Hc HA HB Hl He HL HM) as (a & F & E). rewrite app_nil_r in E. rewrite E.
  cbn [next_rows bind fst snd]. pose proof (zlen_nonneg (rows L)) as PR. set (n := zlen (ltoks l)) in *.
  assert (Pn : 0 < n) by (unfold n; destruct (ltoks l); [congruence|rewrite zlen_cons; pose proof (zlen_nonneg l0); lia]).
  pose proof (capacity_bounds (1 + zlen (rows L)) ltac:(lia)) as CB.
  destruct (filled_resize c a _ n _ (1 + zlen (rows L)) Hc F Pn) as (a' & E' & F'); try (rewrite zlen_cons); try nia.
  rewrite E'. cbn [bind commit]. exists a'. split; [reflexivity|]. destruct F' as (S & Hm & Hn & H1 & _). repeat split; auto; try apply S.
  intros i j Hi Hj. apply H1; [rewrite zlen_cons|]; lia.
Qed.
Theorem read2_blank c B A : cfg_ok c -> 4 <= amax c -> Forall blank B -> exists A', read2 zero c B A = MOk A' /\ empty2 A'.
Proof.
  intros Hc HA HB. unfold read2. destruct (first_blank c B [] Hc HA HB arr2_empty empty2_new) as (a & E & F). rewrite app_nil_r in E. rewrite E.
  cbn [first_rows]. rewrite (empty2_an a F). cbn [bind fst snd]. rewrite (empty2_an a F). cbn. eauto.
Qed.
(** The first line with anything in it is malformed. *)
Theorem read2_bad_first c B l L A : cfg_ok c -> 4 <= amax c -> Forall blank B -> leof l = false -> 2 * zlen (ltoks l) <= amax c -> loud c = true ->
  read2 zero c (B ++ l :: L) A = MFail (report c) A.
Proof.
  intros Hc HA HB He HM Hl. unfold read2. destruct (first_blank c B (l :: L) Hc HA HB arr2_empty empty2_new) as (a & E & F). rewrite E.
  cbn [first_rows]. rewrite (empty2_an a F). destruct (get_first_ok c (ltoks l) (leof l) a Hc HA HM F) as (a1 & E1 & _).
  rewrite E1, He, always_loud by auto. reflexivity.
Qed.
Theorem read2_short c B l L l2 L2 A : cfg_ok c -> 4 <= amax c -> Forall blank B -> ltoks l <> [] -> leof l = true ->
  rows_or_empty (zlen (ltoks l)) L -> 2 * (1 + zlen (rows L)) * zlen (ltoks l) <= amax c -> loud c = true ->
  lempty l2 = false -> zlen (ltoks l2) < zlen (ltoks l) \/ (zlen (ltoks l2) = zlen (ltoks l) /\ leof l2 = false) ->
  read2 zero c (B ++ l :: L ++ l2 :: L2) A = MFail (report c) A.
Proof.
  intros Hc HA HB Hl He HL HM HC H2 H3. destruct (read2_prefix c B l L (l2 :: L2) A Hc HA HB Hl He HL HM) as (a & F & E). rewrite E.
  cbn [next_rows]. rewrite H2. pose proof (zlen_nonneg (rows L)) as PR. set (n := zlen (ltoks l)) in *.
  assert (Pn : 0 < n) by (unfold n; destruct (ltoks l); [congruence|rewrite zlen_cons; pose proof (zlen_nonneg l0); lia]).
  pose proof (capacity_bounds (1 + zlen (rows L)) ltac:(lia)) as CB. set (cp := capacity (1 + zlen (rows L))) in *.
  assert (HX : 1 + zlen (rows L) = zlen (ltoks l :: rows L)) by (rewrite zlen_cons; lia). rewrite HX in *.
  rewrite (get_row_short c cp n) by (auto; nia). reflexivity.
Qed.
Theorem read2_long c B l L l2 L2 A : cfg_ok c -> 4 <= amax c -> Forall blank B -> ltoks l <> [] -> leof l = true ->
  rows_or_empty (zlen (ltoks l)) L -> 2 * (1 + zlen (rows L)) * zlen (ltoks l) <= amax c -> loud c = true ->
  lempty l2 = false -> zlen (ltoks l) < zlen (ltoks l2) ->
  read2 zero c (B ++ l :: L ++ l2 :: L2) A =
  if dbg c then MFail (report c) A
  else if (capacity (1 + zlen (rows L)) - (1 + zlen (rows L))) * zlen (ltoks l) <? zlen (ltoks l2) then MUB else MFail (report c) A.
Proof.
  intros Hc HA HB Hl He HL HM HC H2 H3. destruct (read2_prefix c B l L (l2 :: L2) A Hc HA HB Hl He HL HM) as (a & F & E). rewrite E.
  cbn [next_rows]. rewrite H2. pose proof (zlen_nonneg (rows L)) as PR. set (n := zlen (ltoks l)) in *.
  assert (Pn : 0 < n) by (unfold n; destruct (ltoks l); [congruence|rewrite zlen_cons; pose proof (zlen_nonneg l0); lia]).
  pose proof (capacity_bounds (1 + zlen (rows L)) ltac:(lia)) as CB. set (cp := capacity (1 + zlen (rows L))) in *.
  assert (HX : 1 + zlen (rows L) = zlen (ltoks l :: rows L)) by (rewrite zlen_cons; lia). rewrite HX in *.
  rewrite (get_row_long c cp n) by (auto; nia). destruct (dbg c); [reflexivity|].
  destruct ((cp - zlen (ltoks l :: rows L)) * n <? zlen (ltoks l2)); reflexivity.
Qed.
End T.
