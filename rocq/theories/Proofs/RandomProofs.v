(** Proofs about Util/random.hpp. *)
From Verif Require Import Base.Outcome Base.ZList Model.IntModel Model.ScalarOps Model.Index Model.Slice Model.Array1D Model.Array2D Model.View2D Model.Expr Model.SortModel Model.Random.
From Verif Require Import Spec.ArraySpec Spec.SliceSpec Spec.MatrixSpec Spec.Matrix2Spec Spec.View2DSpec Spec.SortSpec Spec.RandomSpec.
From Verif Require Import Proofs.ViewProofs Proofs.View2DThms Proofs.SortProofs.
Ltac Zify.zify_post_hook ::= Z.div_mod_to_equations.

Section P.
Context {V St : Type} (leb : V -> V -> bool) (is0 : V -> bool) (pre : V -> V -> bool) (draw : V -> V -> St -> V * St).
Implicit Types (b : list V) (s : St) (low high : V).
Notation nth_draw := (nth_draw draw). Notation first_draws := (first_draws draw). Notation state_after := (state_after draw).

Lemma first_S low high n s : first_draws low high (S n) s = fst (draw low high s) :: first_draws low high n (snd (draw low high s)).
Proof. unfold RandomSpec.first_draws. cbn [seq map]. f_equal. rewrite <- seq_shift, map_map. reflexivity. Qed.
Lemma first_len low high n s : length (first_draws low high n s) = n.
Proof. unfold RandomSpec.first_draws. now rewrite map_length, seq_length. Qed.
Lemma first_in low high n s v : In v (first_draws low high n s) -> exists k, (k < n)%nat /\ v = nth_draw low high k s.
Proof. clear is0 leb pre. unfold RandomSpec.first_draws. intros H. apply in_map_iff in H as (k & <- & Hk). apply in_seq in Hk. exists k. split; [lia|reflexivity]. Qed.
Lemma nth_between low high k s : in_bounds leb pre draw -> pre low high = true -> between leb low high (nth_draw low high k s).
Proof. intros H HP. apply H, HP. Qed.

Theorem rands_thm c low high s : pre low high = true -> leb low high = true ->
  rands leb pre draw c low high s = Ok (nth_draw low high 0 s).
Proof. intros HP HL. unfold rands, generator. rewrite HL, check_debug_true, HP. reflexivity. Qed.
Theorem rands_bad_thm c low high s : checked c = true -> leb low high = false -> rands leb pre draw c low high s = Fail (report c).
Proof. intros HC HL. unfold rands. rewrite HL, check_debug_false by assumption. reflexivity. Qed.
Theorem rands_ub_thm c low high s : pre low high = false -> checked c = false \/ leb low high = true -> rands leb pre draw c low high s = UB.
Proof.
  intros HP HC. unfold rands, generator. rewrite HP. destruct (check_debug_cases c (leb low high)) as [[-> _]|(_ & E & E')]; [reflexivity|]. destruct HC; congruence.
Qed.

Lemma fill_write ps : forall b low high s, Forall (fun p => 0 <= p < zlen b) ps ->
  fill_at draw b ps low high s = Ok (scatter b (combine ps (first_draws low high (length ps) s)), state_after low high (length ps) s).
Proof.
  induction ps as [|p ps IH]; intros b low high s HF; [reflexivity|]. apply Forall_cons_iff in HF as [Hp HF]. cbn [fill_at length]. rewrite oset_ok by assumption. cbn [bind].
  rewrite IH by now rewrite zlen_zupd. rewrite first_S. reflexivity.
Qed.
(* every position written holds one of the values written to it *)
Lemma scatter_some ps : forall vs b p, length ps = length vs -> Forall (fun p => 0 <= p < zlen b) ps -> In p ps ->
  exists v, In v vs /\ znth (scatter b (combine ps vs)) p = Some v.
Proof.
  clear is0 leb pre draw. induction ps as [|q ps IH]; intros [|v vs] b p HL HF HI; try easy. apply Forall_cons_iff in HF as [Hq HF]. cbn [combine]. change (scatter b ((q, v) :: combine ps vs)) with (scatter (zupd b q v) (combine ps vs)).
  assert (Forall (fun p => 0 <= p < zlen (zupd b q v)) ps) as HF' by now rewrite zlen_zupd.
  destruct (in_dec Z.eq_dec p ps) as [I|NI].
  - destruct (IH vs (zupd b q v) p) as (w & Hw & E); auto. exists w. split; [now right|assumption].
  - destruct HI as [->|]; [|easy]. exists v. split; [now left|]. rewrite scatter_other.
    + rewrite znth_zupd by assumption. now rewrite Z.eqb_refl.
    + intros r w Hr. apply in_combine_l in Hr. split; [congruence|]. rewrite Forall_forall in HF'. auto.
Qed.

Section View.
Context (c : cfg) (N : Z) (o : obj) (b : list V).
Hypothesis HV : is_view c N o.
Hypothesis HB : zlen b = N.

Theorem fill_thm low high s n : in_bounds leb pre draw -> pre low high = true -> leb low high = true -> o_size o = Ok n ->
  exists b', random_fill leb pre draw c o low high s b = Ok b' /\ zlen b' = N /\
    (forall i, 0 <= i < n -> exists v, o_get c o b' i = Ok v /\ between leb low high v) /\
    (forall q, (forall i, 0 <= i < n -> o_lin c o i <> Ok q) -> znth b' q = znth b q) /\
    (separate c o -> holds c o b' (first_draws low high (Z.to_nat n) s)).
Proof.
  clear is0. intros HD HP HL En. destruct (positions_ok c N o HV) as (ps & E1 & E2 & FP & L). assert (n = zlen ps) as -> by congruence. assert (Forall (fun p => 0 <= p < zlen b) ps) as FB by now rewrite HB.
  set (vs := first_draws low high (length ps) s). assert (length ps = length vs) as LV by (unfold vs; now rewrite first_len).
  exists (scatter b (combine ps vs)). split; [|split; [now rewrite zlen_scatter|split; [|split]]].
  - unfold random_fill, generator. rewrite HL, check_debug_true, HP. cbn [bind]. rewrite E1. cbn [bind]. rewrite E2. cbn [bind]. rewrite fill_write by assumption. reflexivity.
  - intros i Hi. destruct (znth_some ps i Hi) as [p Hp]. destruct (scatter_some ps vs b p LV FB) as (v & Hv & E); [now apply znth_in in Hp|]. exists v. unfold o_get. rewrite (L _ _ Hp). cbn [bind].
    split; [now apply oget_ok|]. apply first_in in Hv as (k & _ & ->). now apply nth_between.
  - intros q Hq. apply scatter_other. intros p x Hin. apply in_combine_l in Hin. split; [|rewrite Forall_forall in FB; auto]. apply in_znth in Hin as [i Hi]. intros ->. apply (Hq i); [apply znth_lt in Hi; lia|auto].
  - intros HS. replace (Z.to_nat (zlen ps)) with (length ps) by (unfold zlen; lia). fold vs. assert (zlen vs = zlen ps) as ZV by (unfold zlen; lia).
    assert (NoDup ps) as ND.
    { apply NoDup_nth_error. intros i j Hi Ej. assert (exists p, nth_error ps i = Some p) as [p Hp] by (destruct (nth_error ps i) eqn:X; [eauto|apply nth_error_None in X; lia]).
      assert (znth ps (Z.of_nat i) = Some p) as Z1 by (unfold znth; replace (Z.of_nat i <? 0) with false by lia; now rewrite Nat2Z.id).
      assert (znth ps (Z.of_nat j) = Some p) as Z2 by (unfold znth; replace (Z.of_nat j <? 0) with false by lia; rewrite Nat2Z.id; congruence).
      enough (Z.of_nat i = Z.of_nat j) by lia. apply (HS (zlen ps) _ _ p); auto; [now apply znth_lt in Z1|now apply znth_lt in Z2]. }
    split; [rewrite E1; f_equal; lia|]. intros i Hi. destruct (znth_some ps i) as [p Hp]; [lia|]. unfold o_get. rewrite (L _ _ Hp). cbn [bind].
    destruct (znth_some vs i Hi) as [x Hx]. rewrite (oget_ok vs i x Hx). apply oget_ok. eapply scatter_combine_nth; eauto.
Qed.
Theorem fill_bad_thm low high s : checked c = true -> leb low high = false -> random_fill leb pre draw c o low high s b = Fail (report c).
Proof. intros HC HL. unfold random_fill. rewrite HL, check_debug_false by assumption. reflexivity. Qed.
Theorem fill_ub_thm low high s : pre low high = false -> checked c = false \/ leb low high = true -> random_fill leb pre draw c o low high s b = UB.
Proof.
  intros HP HC. unfold random_fill, generator. rewrite HP. destruct (check_debug_cases c (leb low high)) as [[-> _]|(_ & E & E')]; [reflexivity|]. destruct HC; congruence.
Qed.

(** Drawing until the number is not zero. *)
Lemma next_some fuel : forall low high s r, next_not0 is0 draw fuel low high s = Some r ->
  exists k, (k < fuel)%nat /\ is0 (nth_draw low high k s) = false /\ (forall j, (j < k)%nat -> is0 (nth_draw low high j s) = true) /\
    fst r = nth_draw low high k s /\ snd r = state_after low high (S k) s.
Proof.
  induction fuel as [|f IH]; intros low high s r; cbn [next_not0]; [easy|]. destruct (is0 (fst (draw low high s))) eqn:E.
  - intros H. apply IH in H as (k & Hk & H0 & HA & H1 & H2). exists (S k). split; [lia|]. split; [exact H0|]. split; [|split; assumption].
    intros [|j] Hj; [exact E|]. apply HA. lia.
  - intros [= <-]. exists O. split; [lia|]. split; [exact E|]. split; [intros j Hj; lia|]. split; reflexivity.
Qed.
Lemma next_none fuel : forall low high s, next_not0 is0 draw fuel low high s = None <-> forall k, (k < fuel)%nat -> is0 (nth_draw low high k s) = true.
Proof.
  induction fuel as [|f IH]; intros low high s; cbn [next_not0]; [split; [intros _ k Hk; lia|reflexivity]|]. destruct (is0 (fst (draw low high s))) eqn:E.
  - rewrite IH. split; intros H k Hk; [destruct k as [|k]; [exact E|apply H; lia]|apply (H (S k)); lia].
  - split; [easy|]. intros H. specialize (H O ltac:(lia)). unfold RandomSpec.nth_draw in H. cbn in H. congruence.
Qed.
Lemma next_mono f : forall f' low high s r, (f <= f')%nat -> next_not0 is0 draw f low high s = Some r -> next_not0 is0 draw f' low high s = Some r.
Proof. induction f as [|f IH]; intros [|f'] low high s r HF; cbn [next_not0]; try easy; try lia. destruct (is0 _); [apply IH; lia|auto]. Qed.

Lemma not0_checks_ok low high : leb low high = true -> is0 low && is0 high = false -> not0_checks leb is0 c low high = Ok tt.
Proof. intros H1 H2. unfold not0_checks. now rewrite H1, H2, check_debug_true, check_debug_true. Qed.
Lemma not0_checks_off low high : checked c = false -> not0_checks leb is0 c low high = Ok tt.
Proof. intros HC. unfold not0_checks. destruct (check_debug_cases c (leb low high)) as [[-> _]|(_ & _ & E)]; [|congruence]. cbn [bind]. destruct (check_debug_cases c (negb (is0 low && is0 high))) as [[-> _]|(_ & _ & E)]; [reflexivity|congruence]. Qed.
Lemma not0_checks_bad low high : checked c = true -> leb low high = false \/ is0 low && is0 high = true -> not0_checks leb is0 c low high = Fail (report c).
Proof.
  intros HC H. unfold not0_checks. destruct (leb low high); [|now rewrite check_debug_false by assumption]. destruct H as [H|H]; [easy|]. rewrite check_debug_true. cbn [bind]. rewrite H. now rewrite check_debug_false by assumption.
Qed.

(* one pass: the values stored, or out of fuel *)
Lemma fill_not0_some fuel ps : forall b low high s, Forall (fun p => 0 <= p < zlen b) ps ->
  (exists vs, fill_not0_at is0 draw fuel b ps low high s = Ok (Some (scatter b (combine ps vs))) /\ length vs = length ps /\
     Forall (fun v => is0 v = false /\ exists k, v = nth_draw low high k s) vs) \/
  fill_not0_at is0 draw fuel b ps low high s = Ok None.
Proof.
  induction ps as [|p ps IH]; intros b0 low high s HF; [left; exists []; repeat split; constructor|]. apply Forall_cons_iff in HF as [Hp HF]. cbn [fill_not0_at].
  destruct (next_not0 is0 draw fuel low high s) as [r|] eqn:E; [|now right]. apply next_some in E as (k & _ & H0 & _ & Hv & Hs). rewrite oset_ok by assumption. cbn [bind].
  destruct (IH (zupd b0 p (fst r)) low high (snd r)) as [(vs & E & HL & HA)|E]; [now rewrite zlen_zupd| |rewrite E; now right].
  left. exists (fst r :: vs). split; [exact E|]. split; [cbn; lia|]. constructor; [split; [now rewrite Hv|eauto]|].
  eapply Forall_impl; [|exact HA]. intros v (Z0 & j & ->). split; [assumption|]. exists (S k + j)%nat. rewrite Hs. unfold RandomSpec.nth_draw. f_equal. f_equal.
  generalize (S k). clear. intros n. revert s. induction n as [|n IH]; intros s; [reflexivity|]. cbn. apply IH.
Qed.
Lemma fill_not0_fuel ps : forall b low high s, Forall (fun p => 0 <= p < zlen b) ps -> (forall k, exists j, (k <= j)%nat /\ is0 (nth_draw low high j s) = false) ->
  exists fuel, forall fuel', (fuel <= fuel')%nat -> fill_not0_at is0 draw fuel' b ps low high s <> Ok None.
Proof.
  induction ps as [|p ps IH]; intros b0 low high s HF HI; [exists O; intros f' _; cbn; discriminate|]. apply Forall_cons_iff in HF as [Hp HF].
  destruct (HI O) as (j & _ & Hj). destruct (next_not0 is0 draw (S j) low high s) as [r|] eqn:E; [|rewrite next_none in E; specialize (E j ltac:(lia)); congruence].
  pose proof E as E'. apply next_some in E' as (k & _ & _ & _ & _ & Hs).
  assert (forall n m s0, state_after low high m (state_after low high n s0) = state_after low high (n + m) s0) as SA by (clear; induction n as [|n IH]; intros m s0; [reflexivity|cbn; apply IH]).
  destruct (IH (zupd b0 p (fst r)) low high (snd r)) as [f Hf]; [now rewrite zlen_zupd| |].
  { intros k0. destruct (HI (S k + k0)%nat) as (i & Hi & H0). exists (i - S k)%nat. split; [lia|]. rewrite Hs. unfold RandomSpec.nth_draw in *. rewrite SA. now replace (S k + (i - S k))%nat with i by lia. }
  exists (Nat.max (S j) f). intros f' Hf'. cbn [fill_not0_at]. rewrite (next_mono (S j) f' low high s r) by (auto; lia). rewrite oset_ok by assumption. cbn [bind]. apply Hf. lia.
Qed.

Theorem not0_fill_thm fuel low high s n : in_bounds leb pre draw -> pre low high = true -> leb low high = true -> is0 low && is0 high = false -> o_size o = Ok n ->
  exists r, random_not0_fill leb is0 pre draw c fuel o low high s b = Ok r /\
    (forall b', r = Some b' -> zlen b' = N /\
      (forall i, 0 <= i < n -> exists v, o_get c o b' i = Ok v /\ between leb low high v /\ is0 v = false) /\
      (forall q, (forall i, 0 <= i < n -> o_lin c o i <> Ok q) -> znth b' q = znth b q)).
Proof.
  intros HD HP HL H0 En. destruct (positions_ok c N o HV) as (ps & E1 & E2 & FP & L). assert (n = zlen ps) as -> by congruence. assert (Forall (fun p => 0 <= p < zlen b) ps) as FB by now rewrite HB.
  unfold random_not0_fill, generator. rewrite not0_checks_ok by assumption. cbn [bind]. rewrite HP. cbn [bind]. rewrite E1. cbn [bind]. rewrite E2. cbn [bind].
  destruct (fill_not0_some fuel ps b low high s FB) as [(vs & -> & LV & HA)|E]; [|rewrite E; exists None; split; [reflexivity|easy]].
  eexists. split; [reflexivity|]. intros b' [= <-]. split; [now rewrite zlen_scatter|]. split.
  - intros i Hi. destruct (znth_some ps i Hi) as [p Hp]. destruct (scatter_some ps vs b p) as (v & Hv & E); auto; [now apply znth_in in Hp|]. exists v. unfold o_get. rewrite (L _ _ Hp). cbn [bind].
    split; [now apply oget_ok|]. rewrite Forall_forall in HA. destruct (HA v Hv) as (Z0 & k & ->). split; [now apply nth_between|assumption].
  - intros q Hq. apply scatter_other. intros p x Hin. apply in_combine_l in Hin. split; [|rewrite Forall_forall in FB; auto]. apply in_znth in Hin as [i Hi]. intros ->. apply (Hq i); [apply znth_lt in Hi; lia|auto].
Qed.
Theorem not0_fill_ends_thm low high s : pre low high = true -> leb low high = true -> is0 low && is0 high = false ->
  (forall k, exists j, (k <= j)%nat /\ is0 (nth_draw low high j s) = false) ->
  exists fuel b', random_not0_fill leb is0 pre draw c fuel o low high s b = Ok (Some b').
Proof.
  intros HP HL H0 HI. destruct (positions_ok c N o HV) as (ps & E1 & E2 & FP & L). assert (Forall (fun p => 0 <= p < zlen b) ps) as FB by now rewrite HB.
  destruct (fill_not0_fuel ps b low high s FB HI) as [f Hf]. exists f. specialize (Hf f (le_n f)).
  unfold random_not0_fill, generator. rewrite not0_checks_ok by assumption. cbn [bind]. rewrite HP. cbn [bind]. rewrite E1. cbn [bind]. rewrite E2. cbn [bind].
  destruct (fill_not0_some f ps b low high s FB) as [(vs & -> & _)|E]; [eauto|congruence].
Qed.
Theorem not0_fill_bad_thm fuel low high s : checked c = true -> leb low high = false \/ is0 low && is0 high = true -> random_not0_fill leb is0 pre draw c fuel o low high s b = Fail (report c).
Proof. intros HC H. unfold random_not0_fill. now rewrite not0_checks_bad. Qed.
End View.

Theorem rands_not0_thm c fuel low high s : pre low high = true -> leb low high = true -> is0 low && is0 high = false ->
  exists r, rands_not0 leb is0 pre draw c fuel low high s = Ok r /\
    (forall v, r = Some v <-> exists k, (k < fuel)%nat /\ v = nth_draw low high k s /\ is0 v = false /\ forall j, (j < k)%nat -> is0 (nth_draw low high j s) = true).
Proof.
  intros HP HL H0. unfold rands_not0, generator. rewrite not0_checks_ok by assumption. cbn [bind]. rewrite HP. cbn [bind]. eexists. split; [reflexivity|]. intros v.
  destruct (next_not0 is0 draw fuel low high s) as [r|] eqn:E; cbn [option_map].
  - apply next_some in E as (k & Hk & Z0 & HA & Hv & _). split.
    + intros [= <-]. exists k. rewrite Hv. auto.
    + intros (k' & Hk' & -> & Z' & HA'). f_equal. rewrite Hv. destruct (Nat.lt_trichotomy k k') as [H|[->|H]]; [rewrite HA' in Z0 by assumption; discriminate|reflexivity|rewrite HA in Z' by assumption; discriminate].
  - split; [easy|]. intros (k & Hk & -> & Z0 & _). rewrite next_none in E. rewrite E in Z0 by assumption. discriminate.
Qed.
Theorem rands_not0_bad_thm c fuel low high s : checked c = true -> leb low high = false \/ is0 low && is0 high = true -> rands_not0 leb is0 pre draw c fuel low high s = Fail (report c).
Proof. intros HC H. unfold rands_not0. now rewrite not0_checks_bad. Qed.
Theorem rands_not0_hang_thm c fuel low high s : checked c = false -> pre low high = true -> (forall k, is0 (nth_draw low high k s) = true) -> rands_not0 leb is0 pre draw c fuel low high s = Ok None.
Proof. intros HC HP HZ. unfold rands_not0, generator. rewrite not0_checks_off, HP by assumption. cbn [bind]. assert (next_not0 is0 draw fuel low high s = None) as -> by (apply next_none; auto). reflexivity. Qed.

(** Several arrays. *)
Theorem fills_thm c low high As : in_bounds leb pre draw -> pre low high = true -> leb low high = true ->
  Forall (fun A => is_view c (zlen (snd A)) (fst (fst A))) As ->
  exists bs, random_fills leb pre draw c As low high = Ok bs /\
    Forall2 (fun A b' => random_fill leb pre draw c (fst (fst A)) low high (snd (fst A)) (snd A) = Ok b') As bs.
Proof.
  intros HD HP HL. induction As as [|[[o s] b] As IH]; intros HF; [exists []; split; [reflexivity|constructor]|]. apply Forall_cons_iff in HF as [HV HF]. destruct (IH HF) as (bs & E & F2). cbn [fst snd] in HV.
  destruct (positions_ok c _ o HV) as (ps & E1 & _). destruct (fill_thm c _ o b HV eq_refl low high s _ HD HP HL E1) as (b' & Eb & _). exists (b' :: bs). cbn [random_fills]. rewrite Eb. cbn [bind]. rewrite E. split; [reflexivity|]. constructor; assumption.
Qed.

(** Expressions. *)
Theorem expr_thm c n low high s : pre low high = true -> leb low high = true -> 0 <= n -> random_expr leb pre c n low high s = Ok (n, s).
Proof.
  clear is0. clear draw. intros HP HL Hn. unfold random_expr, generator. rewrite HL, check_debug_true, HP. cbn [bind]. unfold x_const1, x_gen, x_irange. replace (-1 <? n) with true by lia. rewrite ?check_debug_true. cbn [bind].
  unfold x_seq. replace (-1 <? n) with true by lia. rewrite ?check_debug_true. reflexivity.
Qed.
Theorem expr_bad_thm c n low high s : checked c = true -> (pre low high = true /\ n < 0) \/ leb low high = false -> random_expr leb pre c n low high s = Fail (report c).
Proof.
  clear is0. clear draw. intros HC H. unfold random_expr, generator. destruct (leb low high) eqn:HL; [|now rewrite check_debug_false by assumption]. destruct H as [[HP Hn]|H]; [|easy]. rewrite check_debug_true, HP. cbn [bind].
  unfold x_const1. replace (-1 <? n) with false by lia. now rewrite check_debug_false by assumption.
Qed.
Theorem expr2_thm c m n low high s : pre low high = true -> leb low high = true -> 0 <= m -> 0 <= n -> (m = 0 <-> n = 0) -> m * n <= LONG_MAX -> random_expr2 leb pre c m n low high s = Ok (m, n, m * n, s).
Proof.
  clear is0. clear draw. intros HP HL Hm Hn Hz Hl. unfold random_expr2, generator. rewrite HL, check_debug_true, HP. cbn [bind]. unfold x_const2, x_gen2, x_irange2, x_index2, semi_valid.
  replace (-1 <? m) with true by lia. replace (-1 <? n) with true by lia. replace (negb (xorb (m =? 0) (n =? 0))) with true by (destruct (Z.eqb_spec m 0), (Z.eqb_spec n 0); intuition). rewrite ?check_debug_true. cbn [bind]. rewrite ?check_debug_true. cbn [bind].
  unfold lmul. rewrite lret_ok by (unfold LONG_MIN, LONG_MAX in *; nia). reflexivity.
Qed.
Theorem expr2_bad_thm c m n low high s : checked c = true -> (pre low high = true /\ (m < 0 \/ n < 0 \/ (m = 0 /\ n <> 0) \/ (m <> 0 /\ n = 0))) \/ leb low high = false -> random_expr2 leb pre c m n low high s = Fail (report c).
Proof.
  clear is0. clear draw. intros HC H. unfold random_expr2, generator. destruct (leb low high) eqn:HL; [|now rewrite check_debug_false by assumption]. destruct H as [[HP Hn]|H]; [|easy]. rewrite check_debug_true, HP. cbn [bind].
  unfold x_const2, semi_valid. destruct (Z.ltb_spec (-1) m); [rewrite check_debug_true|now rewrite check_debug_false by assumption]. cbn [bind].
  destruct (Z.ltb_spec (-1) n); [rewrite check_debug_true|now rewrite check_debug_false by assumption]. cbn [bind].
  replace (negb (xorb (m =? 0) (n =? 0))) with false by (destruct (Z.eqb_spec m 0), (Z.eqb_spec n 0); intuition lia). now rewrite check_debug_false by assumption.
Qed.
Lemma read_first k : forall low high s, read_elements draw k low high s = (first_draws low high k s, state_after low high k s).
Proof. induction k as [|k IH]; intros; [reflexivity|]. cbn [read_elements]. rewrite IH, first_S. reflexivity. Qed.
Theorem eval_thm E low high : eval_expr draw E low high = (first_draws low high (Z.to_nat (fst E)) (snd E), state_after low high (Z.to_nat (fst E)) (snd E)).
Proof. apply read_first. Qed.
Theorem eval_self_thm f E low high : eval_self draw f E low high = map (fun v => f v v) (first_draws low high (Z.to_nat (fst E)) (snd E)).
Proof.
  unfold eval_self. generalize (Z.to_nat (fst E)) (snd E). induction n as [|n IH]; intros s; [reflexivity|]. rewrite first_S. cbn [read_twice map]. now rewrite IH.
Qed.
End P.

(** bool. *)
Theorem bool_thm {St} (draw : Z -> Z -> St -> Z * St) c s : in_bounds Z.leb pre_int draw ->
  rands_bool draw c s = Ok (fst (draw 0 1 s) =? 1).
Proof.
  intros HD. unfold rands_bool. rewrite rands_thm by reflexivity. f_equal. unfold nth_draw, draw_bool. cbn [state_after fst Z.b2z]. destruct (HD 0 1 s eq_refl) as [H1 H2]. assert (fst (draw 0 1 s) = 0 \/ fst (draw 0 1 s) = 1) as [-> | ->] by lia; reflexivity.
Qed.

(** Floating point. *)
From Coq Require Import Reals Lra.
From Flocq Require Import Core BinarySingleNaN.
From Verif Require Import Spec.FloatSpec.

Lemma one_only (v : double) : Bleb (dbl 1 0) v = true -> Bleb v (dbl 1 0) = true -> v = dbl 1 0.
Proof.
  intros H1 H2. assert (is_finite (dbl 1 0) = true) as F1 by (vm_compute; reflexivity).
  assert (is_finite v = true) as FV.
  { destruct v as [s|s| |s m e H]; try reflexivity; exfalso; [destruct s|]; vm_compute in H1, H2; discriminate. }
  rewrite Bleb_correct in H1, H2 by assumption. apply B2R_Bsign_inj; auto.
  - destruct (Rle_bool_spec (B2R (dbl 1 0)) (B2R v)); [|discriminate]. destruct (Rle_bool_spec (B2R v) (B2R (dbl 1 0))); [|discriminate]. lra.
  - destruct (Rle_bool_spec (B2R (dbl 1 0)) (B2R v)) as [H|]; [|discriminate].
    assert (0 < B2R (dbl 1 0))%R as P by (change (B2R (dbl 1 0)) with (F2R (Float radix2 (Z.pos 4503599627370496) (-52))); apply F2R_gt_0; reflexivity).
    replace (Bsign (dbl 1 0)) with false by (vm_compute; reflexivity). destruct v as [s|s| |s m e B]; cbn [B2R] in H; try (exfalso; lra); try discriminate.
    destruct s; [|reflexivity]. exfalso. assert (F2R (Float radix2 (Z.neg m) e) < 0)%R by (apply F2R_lt_0; reflexivity). cbn [cond_Zopp Z.opp] in H. lra.
Qed.
Definition quad := binary_float 113 16384.
#[export] Instance prec113 : Prec_gt_0 113 := eq_refl.
#[export] Instance emax16384 : Prec_lt_emax 113 16384 := eq_refl.
Definition qd (m e : Z) : quad := binary_normalize 113 16384 prec113 emax16384 mode_NE m e false.
Lemma quad_out {St} (draw : double -> double -> St -> double * St) c s : in_bounds Bleb pre_real draw ->
  exists v, rands Bleb (pre_quad (convert 53 1024) pre_real) (draw_quad (convert 53 1024) (convert 113 16384) draw) c (qd 1152921504606846977 (-60)) (qd 1152921504606846977 (-60)) s = Ok v /\
    Bltb v (qd 1152921504606846977 (-60)) = true.
Proof.
  intros HD. set (x := qd _ _).
  assert (convert 53 1024 x = dbl 1 0) as Ex by (apply B2SF_inj; vm_compute; reflexivity).
  assert (pre_real (dbl 1 0) (dbl 1 0) = true) as HP by (vm_compute; reflexivity).
  rewrite rands_thm; [|unfold pre_quad; rewrite Ex; exact HP|vm_compute; reflexivity]. eexists. split; [reflexivity|].
  unfold nth_draw, draw_quad. cbn [state_after fst]. rewrite Ex. destruct (HD (dbl 1 0) (dbl 1 0) s HP) as [H1 H2]. rewrite (one_only _ H1 H2). vm_compute. reflexivity.
Qed.
