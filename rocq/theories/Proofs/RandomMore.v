(** Proofs about random_not0 expressions, random_not0 of several arrays, and the semi-random functions on bool. *)
From Verif Require Import Base.Outcome Base.ZList Model.IntModel Model.Index Model.Slice Model.Array1D Model.Array2D Model.View2D Model.Expr Model.SortModel Model.Random Model.SemiRandom.
From Verif Require Import Spec.ArraySpec Spec.MatrixSpec Spec.Matrix2Spec Spec.View2DSpec Spec.SortSpec Spec.RandomSpec Spec.SemiSpec.
From Verif Require Import Proofs.ViewProofs Proofs.View2DThms Proofs.SortProofs Proofs.RandomProofs Proofs.SemiProofs.

Section R.
Context {V St : Type} (leb : V -> V -> bool) (is0 : V -> bool) (pre : V -> V -> bool) (draw : V -> V -> St -> V * St).
Notation nth_draw := (nth_draw draw). Notation first_draws := (first_draws draw). Notation state_after := (state_after draw).

Lemma first_app low high n : forall m s, first_draws low high (n + m) s = first_draws low high n s ++ first_draws low high m (state_after low high n s).
Proof. clear. induction n as [|n IH]; intros m s; [reflexivity|]. cbn [Nat.add]. rewrite !first_S. cbn [app]. f_equal. apply IH. Qed.
Lemma state_app low high n : forall m s, state_after low high m (state_after low high n s) = state_after low high (n + m) s.
Proof. clear. induction n as [|n IH]; intros m s; [reflexivity|cbn; apply IH]. Qed.
Lemma filter_zeros low high k : forall s, (forall j, (j < k)%nat -> is0 (nth_draw low high j s) = true) -> filter (fun v => negb (is0 v)) (first_draws low high k s) = [].
Proof.
  clear. induction k as [|k IH]; intros s H; [reflexivity|]. rewrite first_S. cbn [filter]. change (fst (draw low high s)) with (nth_draw low high 0 s). rewrite (H O) by lia. cbn [negb]. apply IH. intros j Hj. exact (H (S j) ltac:(lia)).
Qed.
Lemma filter_next low high k s : is0 (nth_draw low high k s) = false -> (forall j, (j < k)%nat -> is0 (nth_draw low high j s) = true) ->
  filter (fun v => negb (is0 v)) (first_draws low high (S k) s) = [nth_draw low high k s].
Proof.
  intros H0 HA. replace (S k) with (k + 1)%nat by lia. rewrite first_app, filter_app, filter_zeros by assumption. cbn [app]. unfold RandomSpec.first_draws. cbn [seq map filter].
  change (nth_draw low high 0 (state_after low high k s)) with (nth_draw low high k s). now rewrite H0.
Qed.
(** The numbers read are the non-zero numbers among the first [k] drawn, and the generator stands after those. *)
Lemma read_not0_some fuel n : forall low high s vs s', read_not0 is0 draw fuel n low high s = Some (vs, s') ->
  length vs = n /\ exists k, vs = filter (fun v => negb (is0 v)) (first_draws low high k s) /\ s' = state_after low high k s.
Proof.
  induction n as [|n IH]; intros low high s vs s'; cbn [read_not0].
  - intros [= <- <-]. split; [reflexivity|]. exists O. split; reflexivity.
  - destruct (next_not0 is0 draw fuel low high s) as [r|] eqn:E; [|easy]. destruct (read_not0 is0 draw fuel n low high (snd r)) as [[q sq]|] eqn:R; [|easy]. cbn [fst snd]. intros [= <- <-].
    apply (next_some leb is0 pre draw) in E as (k & _ & H0 & HA & Hv & Hs). apply IH in R as (HL & j & HQ & HS). split; [cbn; lia|]. exists (S k + j)%nat. rewrite first_app, filter_app, filter_next by assumption.
    rewrite Hs in HQ, HS. rewrite HQ, HS, Hv. cbn [app]. split; [reflexivity|]. rewrite <- state_app. reflexivity.
Qed.
Lemma read_not0_none fuel n : forall low high s, read_not0 is0 draw fuel n low high s = None ->
  exists k, forall j, (j < fuel)%nat -> is0 (nth_draw low high (k + j) s) = true.
Proof.
  induction n as [|n IH]; intros low high s; cbn [read_not0]; [easy|]. destruct (next_not0 is0 draw fuel low high s) as [r|] eqn:E.
  - destruct (read_not0 is0 draw fuel n low high (snd r)) eqn:R; [easy|]. intros _. apply IH in R as (k & HK). apply (next_some leb is0 pre draw) in E as (i & _ & _ & _ & _ & Hs). exists (S i + k)%nat. intros j Hj. specialize (HK j Hj).
    rewrite Hs in HK. unfold RandomSpec.nth_draw in *. rewrite state_app in HK. now replace (S i + k + j)%nat with (S i + (k + j))%nat by lia.
  - intros _. rewrite (next_none leb is0 pre draw) in E. exists O. exact E.
Qed.
Lemma read_not0_ends n : forall low high s, (forall k, exists j, (k <= j)%nat /\ is0 (nth_draw low high j s) = false) ->
  exists fuel, forall fuel', (fuel <= fuel')%nat -> read_not0 is0 draw fuel' n low high s <> None.
Proof.
  induction n as [|n IH]; intros low high s HI; [exists O; intros f' _; cbn; discriminate|].
  destruct (HI O) as (j & _ & Hj). destruct (next_not0 is0 draw (S j) low high s) as [r|] eqn:E; [|rewrite (next_none leb is0 pre draw) in E; specialize (E j ltac:(lia)); congruence].
  pose proof E as E'. apply (next_some leb is0 pre draw) in E' as (k & _ & _ & _ & _ & Hs). destruct (IH low high (snd r)) as [f Hf].
  { intros k0. destruct (HI (S k + k0)%nat) as (i & Hi & H0). exists (i - S k)%nat. split; [lia|]. rewrite Hs. unfold RandomSpec.nth_draw in *. rewrite state_app. now replace (S k + (i - S k))%nat with i by lia. }
  exists (Nat.max (S j) f). intros f' Hf'. cbn [read_not0]. rewrite (next_mono leb is0 pre draw (S j) f' low high s r) by (auto; lia). specialize (Hf f' ltac:(lia)). destruct (read_not0 is0 draw f' n low high (snd r)); [discriminate|congruence].
Qed.

Theorem not0_expr_thm c n low high (s : St) : pre low high = true -> leb low high = true -> is0 low && is0 high = false -> 0 <= n -> random_not0_expr leb is0 pre c n low high s = Ok (n, s).
Proof.
  clear draw. intros HP HL H0 Hn. pose proof (expr_thm leb pre c n low high s HP HL Hn) as E. unfold random_expr in E. rewrite HL, check_debug_true in E. cbn [bind] in E.
  unfold random_not0_expr. rewrite not0_checks_ok by assumption. exact E.
Qed.
Theorem not0_expr2_thm c m n low high (s : St) : pre low high = true -> leb low high = true -> is0 low && is0 high = false -> 0 <= m -> 0 <= n -> (m = 0 <-> n = 0) -> m * n <= LONG_MAX ->
  random_not0_expr2 leb is0 pre c m n low high s = Ok (m, n, m * n, s).
Proof.
  clear draw. intros HP HL H0 Hm Hn Hz Hs. pose proof (expr2_thm leb pre c m n low high s HP HL Hm Hn Hz Hs) as E. unfold random_expr2 in E. rewrite HL, check_debug_true in E. cbn [bind] in E.
  unfold random_not0_expr2. rewrite not0_checks_ok by assumption. exact E.
Qed.
Theorem not0_expr_bad_thm c n low high (s : St) : checked c = true -> leb low high = false \/ is0 low && is0 high = true \/ (pre low high = true /\ n < 0) -> random_not0_expr leb is0 pre c n low high s = Fail (report c).
Proof.
  clear draw. intros HC H. unfold random_not0_expr. destruct (leb low high) eqn:HL; [|now rewrite not0_checks_bad by auto]. destruct (is0 low && is0 high) eqn:H0; [now rewrite not0_checks_bad by auto|]. destruct H as [H|[H|[HP Hn]]]; try discriminate.
  rewrite not0_checks_ok by assumption. pose proof (expr_bad_thm leb pre c n low high s HC (or_introl (conj HP Hn))) as E. unfold random_expr in E. rewrite HL, check_debug_true in E. exact E.
Qed.
Theorem not0_expr2_bad_thm c m n low high (s : St) : checked c = true ->
  leb low high = false \/ is0 low && is0 high = true \/ (pre low high = true /\ (m < 0 \/ n < 0 \/ (m = 0 /\ n <> 0) \/ (m <> 0 /\ n = 0))) -> random_not0_expr2 leb is0 pre c m n low high s = Fail (report c).
Proof.
  clear draw. intros HC H. unfold random_not0_expr2. destruct (leb low high) eqn:HL; [|now rewrite not0_checks_bad by auto]. destruct (is0 low && is0 high) eqn:H0; [now rewrite not0_checks_bad by auto|]. destruct H as [H|[H|[HP Hn]]]; try discriminate.
  rewrite not0_checks_ok by assumption. pose proof (expr2_bad_thm leb pre c m n low high s HC (or_introl (conj HP Hn))) as E. unfold random_expr2 in E. rewrite HL, check_debug_true in E. exact E.
Qed.
Theorem not0_eval_thm fuel E low high : match eval_not0_expr is0 draw fuel E low high with
  | Some (vs, s') => zlen vs = Z.max 0 (fst E) /\ exists k, vs = filter (fun v => negb (is0 v)) (first_draws low high k (snd E)) /\ s' = state_after low high k (snd E)
  | None => exists k, forall j, (j < fuel)%nat -> is0 (nth_draw low high (k + j) (snd E)) = true
  end.
Proof.
  unfold eval_not0_expr. destruct (read_not0 is0 draw fuel (Z.to_nat (fst E)) low high (snd E)) as [[vs s']|] eqn:R; [|now apply read_not0_none in R].
  apply read_not0_some in R as (HL & H). split; [unfold zlen; lia|exact H].
Qed.
Theorem not0_eval_ends_thm E low high : (forall k, exists j, (k <= j)%nat /\ is0 (nth_draw low high j (snd E)) = false) -> exists fuel vs s', eval_not0_expr is0 draw fuel E low high = Some (vs, s').
Proof.
  intros H. destruct (read_not0_ends (Z.to_nat (fst E)) low high (snd E) H) as [f Hf]. exists f. specialize (Hf f (le_n f)). unfold eval_not0_expr. destruct (read_not0 is0 draw f _ low high _) as [[vs s']|]; [eauto|congruence].
Qed.
(** Several arrays: each as if it were the only one. *)
Theorem not0_fills_thm c fuel low high As : in_bounds leb pre draw -> pre low high = true -> leb low high = true -> is0 low && is0 high = false ->
  Forall (fun A => is_view c (zlen (snd A)) (fst (fst A))) As ->
  exists r, random_not0_fills leb is0 pre draw c fuel As low high = Ok r /\
    match r with
    | Some bs => Forall2 (fun A b' => random_not0_fill leb is0 pre draw c fuel (fst (fst A)) low high (snd (fst A)) (snd A) = Ok (Some b')) As bs
    | None => Exists (fun A => random_not0_fill leb is0 pre draw c fuel (fst (fst A)) low high (snd (fst A)) (snd A) = Ok None) As
    end.
Proof.
  intros HD HP HL H0. induction As as [|[[o s] b] As IH]; intros HF; [exists (Some []); split; [reflexivity|constructor]|]. apply Forall_cons_iff in HF as [HV HF]. destruct (IH HF) as (r & E & F2). cbn [fst snd] in HV.
  destruct (positions_ok c _ o HV) as (ps & E1 & _). destruct (not0_fill_thm leb is0 pre draw c _ o b HV eq_refl fuel low high s _ HD HP HL H0 E1) as (b' & Eb & _). cbn [random_not0_fills]. rewrite Eb. cbn [bind].
  destruct b' as [b'|]; [|exists None; split; [reflexivity|now left]]. rewrite E. cbn [bind]. eexists. split; [reflexivity|]. destruct r; cbn [option_map]; [constructor; assumption|now right].
Qed.
End R.

(** ** Semi-random: bool *)
Definition at_least (tm s : Z) (k : nat) : bool := draw tm s (2 * k) <=? draw tm s (2 * k + 1).
Lemma bool_step c tm s k : sg_random_bool c (states2 tm s k) = Ok (at_least tm s k, states2 tm s (S k)).
Proof.
  unfold sg_random_bool, at_least. assert (sg_generate c (states2 tm s k) = Ok (draw tm s (2 * k))) as ->.
  { destruct k as [|k]; [apply draw_first|]. cbn [states2]. replace (2 * S k)%nat with (S (2 * k + 1)) by lia. apply draw_step. }
  cbn [bind]. rewrite draw_step. cbn [bind states2]. replace (2 * k + 1)%nat with (S (2 * k)) by lia. do 2 f_equal. lia.
Qed.
Theorem semi_bool c tm seed : 0 <= tm < 256 -> 0 <= seed < two32 -> semi_rands_bool c tm seed = Ok (draw tm seed 0 <=? draw tm seed 1).
Proof.
  intros HT HS. unfold semi_rands_bool. rewrite check_debug_true, sg_init_ok by assumption. cbn [bind]. change (start tm seed) with (states2 tm seed 0). rewrite bool_step. reflexivity.
Qed.
Theorem fill_bool c tm seed l : 0 <= tm < 256 -> 0 <= seed < two32 ->
  semi_fill_bool c tm seed l = Ok (map (fun k => let s := seed_of seed (zlen l) in draw tm s (2 * k) <=? draw tm s (2 * k + 1)) (seq 0 (length l))).
Proof.
  intros HT HS. unfold semi_fill_bool. rewrite check_debug_true. cbn [bind]. destruct (seed_ok seed (zlen l) HS (zlen_nonneg l)) as (-> & HB). cbn [bind]. rewrite sg_init_ok by assumption. cbn [bind].
  set (s := seed_of seed (zlen l)) in *. change (start tm s) with (states2 tm s 0). rewrite (sg_fill_vals _ (states2 tm s) (at_least tm s) l); [reflexivity|]. intros k. apply bool_step.
Qed.
(** Arrays filled in one call: those of one size are equal. *)
Theorem fills_same c t tm l l' : 0 <= tm < 256 -> zlen l = zlen l' -> exists r, semi_fills c t tm [l; l'] = Ok [r; r].
Proof.
  intros HT HL. destruct (tmin_le t) as (T1 & T2). assert (A : args_ok t tm 1 0 1) by (unfold args_ok, two32; lia). cbn [semi_fills]. rewrite !fill_unit by assumption. cbn [bind]. rewrite <- HL.
  replace (length l') with (length l) by (unfold zlen in HL; lia). eauto.
Qed.
Theorem fills_values c t tm ls : 0 <= tm < 256 ->
  semi_fills c t tm ls = Ok (map (fun l => map (fun k => let s := seed_of 1 (zlen l) in if draw tm s (2 * k + 1) <? draw tm s (2 * k) then 0 else 1) (seq 0 (length l))) ls).
Proof.
  intros HT. destruct (tmin_le t) as (T1 & T2). assert (A : args_ok t tm 1 0 1) by (unfold args_ok, two32; lia).
  induction ls as [|l ls IH]; [reflexivity|]. cbn [semi_fills map]. rewrite fill_unit by assumption. cbn [bind]. rewrite IH. reflexivity.
Qed.

(** ** Semi-random expressions without zeros *)
Lemma fill_read rnd fuel k : forall i b p, 0 <= i -> i + Z.of_nat k = zlen b ->
  not0_fill rnd fuel k i b p = (r <- semi_not0_read rnd fuel k p ;; Ok (option_map (fun l => firstn (Z.to_nat i) b ++ l) r)).
Proof.
  induction k as [|k IH]; intros i b p Hi HB; cbn [not0_fill semi_not0_read].
  - cbn. rewrite firstn_all2 by (unfold zlen in HB; lia). now rewrite app_nil_r.
  - destruct (not0_loop rnd fuel p) as [[[v q]|]| |]; cbn [bind option_map]; trivial. rewrite oset_ok by lia. cbn [bind]. rewrite IH by (rewrite ?zlen_zupd; lia).
    destruct (semi_not0_read rnd fuel k q) as [[l|]| |]; cbn [bind option_map]; trivial. do 2 f_equal. replace (Z.to_nat (i + 1)) with (S (Z.to_nat i)) by lia.
    assert (firstn (S (Z.to_nat i)) (zupd b i v) = firstn (Z.to_nat i) b ++ [v]) as ->; [|now rewrite <- app_assoc].
    unfold zupd. replace (i <? 0) with false by lia. assert (HN : (Z.to_nat i < length b)%nat) by (unfold zlen in HB; lia). revert HN. generalize (Z.to_nat i). clear. intros n. revert b. induction n as [|n IH]; intros [|x b] H; cbn [length] in H; try lia; [reflexivity|]. cbn [upd]. rewrite !firstn_cons, IH by lia. reflexivity.
Qed.
(** Evaluating the expression of n elements gives what filling an array of n elements gives. *)
Theorem not0_expr_same c t fuel tm low high seed (l : list Z) :
  (p <- semi_not0_expr_init c tm low high seed (zlen l) ;; semi_not0_read (sg_random c t low high) fuel (length l) p) = semi_random_not0 c t fuel tm low high seed l.
Proof.
  unfold semi_not0_expr_init, semi_random_not0. destruct (check_debug c (Ok (low <=? high))); cbn [bind]; trivial. destruct (check_debug c (Ok (negb _))); cbn [bind]; trivial. destruct (iadd _ _ _); cbn [bind]; trivial. destruct (sg_init _ _) as [p| |]; cbn [bind]; trivial.
  rewrite fill_read by (unfold zlen; lia). destruct (semi_not0_read _ _ _ _) as [[r|]| |]; reflexivity.
Qed.
