(** Final forms of the one-dimensional array theorems. *)
From Coq Require Import Sorting.Sorted.
From Verif Require Import Base.Outcome Base.ZList Model.IntModel Model.ScalarOps Model.Index Model.Slice Model.Array1D Model.Store1D.
From Verif Require Import Spec.ArraySpec Spec.SliceSpec Spec.Store1DSpec.
From Verif Require Import Proofs.ScalarProofs Proofs.Array1DProofs Proofs.SliceProofs Proofs.ViewProofs Proofs.Store1DProofs.
Ltac Zify.zify_post_hook ::= Z.div_mod_to_equations.

Section T.
Context {V : Type} (zero : V).
Implicit Types (a : arr V) (l : list V).

Lemma remove_indexes_thm c a l v : cfg_ok c -> rep a l -> zlen l <= amax c ->
  StronglySorted Z.lt v -> Forall (fun p => 0 <= p < zlen l) v ->
  exists a' ps, arr_remove_indexes zero c v a = Ok a' /\ rep a' (pick l ps) /\ StronglySorted Z.lt ps /\
    forall p, In p ps <-> 0 <= p < zlen l /\ ~ In p v.
Proof.
  intros Hc Hr HL Hs Hf. apply increasing_spec in Hs. apply in_range_forall in Hf.
  assert (covered c (guard c (increasing v && forallb (in_range (zlen l)) v) (Ok (keep l v)))) as Hcov.
  { right. rewrite Hs, Hf. exact I. }
  pose proof (sim_remove_indexes zero c a l v Hr HL Hcov) as Hsim. rewrite Hs, Hf in Hsim. simpl in Hsim.
  destruct Hsim as (a' & E & Hr' & _). eexists a', _. split; [exact E|]. split; [exact Hr'|].
  split; [apply sorted_filter, sorted_zseq|].
  intros p. pose proof (zlen_nonneg l). unfold all_positions. rewrite filter_In, in_zseq.
  rewrite negb_true_iff, <- not_true_iff_false, existsb_exists.
  split.
  - intros [H1 H2]. split; [lia|]. intros Hin. apply H2. exists p. split; [assumption|lia].
  - intros [H1 H2]. split; [lia|]. intros (q & Hq & E'). assert (p = q) as -> by lia. contradiction.
Qed.
Lemma remove_indexes_bad_thm c a l v : cfg_ok c -> rep a l -> zlen l <= amax c -> checked c = true ->
  ~ (StronglySorted Z.lt v /\ Forall (fun p => 0 <= p < zlen l) v) ->
  arr_remove_indexes zero c v a = Fail (report c).
Proof.
  intros Hc Hr HL Hk Hn. pose proof (sim_remove_indexes zero c a l v Hr HL (or_introl Hk)) as Hsim.
  unfold guard in Hsim. destruct (increasing v && forallb (in_range (zlen l)) v) eqn:G; [|exact Hsim].
  apply andb_true_iff in G as [G1 G2]. apply increasing_spec in G1. apply in_range_forall in G2. tauto.
Qed.
Lemma remove_last_thm c a l k : cfg_ok c -> rep a l -> zlen l <= amax c -> 0 <= k < zlen l ->
  exists a', arr_remove_last zero c k a = Ok a' /\
    rep a' (firstn (Z.to_nat (zlen l - 1 - k)) l ++ skipn (Z.to_nat (zlen l - k)) l).
Proof.
  intros Hc Hr HL Hk. unfold arr_remove_last. rewrite (proj2 Hr). unfold cfg_ok in Hc.
  rewrite lsub_ok by (unfold LONG_MIN; lia). cbn [bind]. rewrite lsub_ok by (unfold LONG_MIN; lia). cbn [bind].
  destruct (arr_remove_ok zero c Hc a l (zlen l - 1 - k) 1) as (a' & E & H'); auto; try lia.
  exists a'. split; [assumption|]. now replace (zlen l - 1 - k + 1) with (zlen l - k) in H' by lia.
Qed.
Lemma remove_front_back_thm c a l k : cfg_ok c -> rep a l -> zlen l <= amax c -> 0 < k <= zlen l ->
  (exists a', arr_remove_front zero c k a = Ok a' /\ rep a' (skipn (Z.to_nat k) l)) /\
  (exists a', arr_remove_back zero c k a = Ok a' /\ rep a' (firstn (Z.to_nat (zlen l - k)) l)).
Proof.
  intros Hc Hr HL Hk. unfold arr_remove_front, arr_remove_back. rewrite (proj2 Hr). split.
  - destruct (arr_remove_ok zero c Hc a l 0 k) as (a' & E & H'); auto; try lia. eauto.
  - unfold cfg_ok in *. rewrite lsub_ok by (unfold LONG_MIN; lia). cbn [bind].
    destruct (arr_remove_ok zero c Hc a l (zlen l - k) k) as (a' & E & H'); auto; try lia. exists a'. split; [assumption|].
    rewrite skipn_all2, app_nil_r in H' by (unfold zlen; lia). assumption.
Qed.
Lemma insert_front_back_thm c a l x : cfg_ok c -> rep a l -> zlen l < amax c ->
  (exists a', arr_insert_front zero c x a = Ok a' /\ rep a' (x :: l)) /\
  (exists a', arr_insert_back zero c x a = Ok a' /\ rep a' (l ++ [x])).
Proof.
  intros Hc Hr HL. pose proof (zlen_nonneg l). unfold arr_insert_front, arr_insert_back. rewrite (proj2 Hr). split.
  - destruct (arr_insert_ok zero c Hc a l 0 x) as (a' & E & H'); auto; try lia. eauto.
  - destruct (arr_insert_ok zero c Hc a l (zlen l) x) as (a' & E & H'); auto; try lia. exists a'. split; [assumption|].
    rewrite skipn_all2, firstn_all2 in H' by (unfold zlen; lia). assumption.
Qed.
Lemma resize_thm c a l n : rep a l -> 0 <= n <= amax c ->
  exists a', arr_resize zero c n true a = Ok a' /\ an a' = n /\ zlen (buf a') = n /\
    (forall i, 0 <= i < Z.min n (zlen l) -> znth (buf a') i = znth l i) /\
    (forall i, zlen l <= i < n -> znth (buf a') i = Some zero).
Proof.
  intros Hr Hn. destruct (arr_resize_ok zero c a l n true) as (a' & E & [H1 H2]); auto. exists a'. split; [assumption|].
  pose proof (zlen_nonneg l).
  destruct (Z.eqb_spec n (zlen l)) as [->|Hne].
  - rewrite H1. repeat split; auto; intros; lia.
  - assert (zlen (buf a') = n) as L.
    { rewrite H1. rewrite zlen_app. unfold zlen. rewrite firstn_length, repeat_length. unfold zlen in *. lia. }
    split; [congruence|]. split; [assumption|]. rewrite H1. split; intros i Hi.
    + rewrite znth_app_l; [|unfold zlen; rewrite firstn_length; unfold zlen in *; lia].
      rewrite znth_firstn by lia. now replace (i <? n) with true by lia.
    + assert (zlen (firstn (Z.to_nat n) l) = zlen l) as LF by (unfold zlen; rewrite firstn_length; unfold zlen in *; lia).
      rewrite znth_app_r by lia. rewrite LF.
      replace (Z.to_nat n - length l)%nat with (Z.to_nat (n - zlen l)) by (unfold zlen in *; lia). apply znth_repeat. lia.
Qed.

(** A list with its positions p..p+k-1 taken out / with m spliced in before position p, by elements. *)
Lemma remove_thm c a l p k : cfg_ok c -> rep a l -> zlen l <= amax c -> 0 < k -> 0 <= p -> p + k <= zlen l ->
  exists a', arr_remove zero c p k a = Ok a' /\ an a' = zlen l - k /\ zlen (buf a') = zlen l - k /\
    (forall i, 0 <= i < p -> znth (buf a') i = znth l i) /\
    (forall i, p + k <= i < zlen l -> znth (buf a') (i - k) = znth l i).
Proof.
  intros Hc Hr HL H1 H2 H3. destruct (arr_remove_ok zero c Hc a l p k) as (a' & E & [B N]); auto. exists a'. split; [assumption|].
  assert (zlen (firstn (Z.to_nat p) l) = p) as LF by (rewrite zlen_firstn; lia).
  assert (zlen (buf a') = zlen l - k) as L by (rewrite B, zlen_app, LF, zlen_skipn; lia).
  split; [congruence|]. split; [assumption|]. rewrite B. split; intros i Hi.
  - rewrite znth_app_l by lia. rewrite znth_firstn by lia. now replace (i <? p) with true by lia.
  - rewrite znth_app_r by lia. rewrite LF. rewrite znth_skipn by lia. f_equal. lia.
Qed.
Lemma insert_thm c a l x p : cfg_ok c -> rep a l -> 0 <= p <= zlen l -> zlen l < amax c ->
  exists a', arr_insert zero c p x a = Ok a' /\ an a' = zlen l + 1 /\ zlen (buf a') = zlen l + 1 /\
    (forall i, 0 <= i < p -> znth (buf a') i = znth l i) /\ znth (buf a') p = Some x /\
    (forall i, p <= i < zlen l -> znth (buf a') (i + 1) = znth l i).
Proof.
  intros Hc Hr Hp HL. destruct (arr_insert_ok zero c Hc a l p x) as (a' & E & [B N]); auto; [lia|]. exists a'. split; [assumption|].
  assert (zlen (firstn (Z.to_nat p) l) = p) as LF by (rewrite zlen_firstn; lia).
  assert (zlen (buf a') = zlen l + 1) as L by (rewrite B, zlen_app, LF, zlen_cons, zlen_skipn; lia).
  split; [congruence|]. split; [assumption|]. rewrite B. split; [|split]; [intros i Hi| |intros i Hi].
  - rewrite znth_app_l by lia. rewrite znth_firstn by lia. now replace (i <? p) with true by lia.
  - rewrite znth_app_r by lia. rewrite LF, Z.sub_diag. reflexivity.
  - rewrite znth_app_r by lia. rewrite LF. rewrite znth_cons_pos by lia. rewrite znth_skipn by lia. f_equal. lia.
Qed.
Lemma insert_arr_thm c a l A m p : cfg_ok c -> rep a l -> produces A m -> 0 <= p <= zlen l -> zlen l + zlen m <= amax c ->
  exists a', arr_insert_arr zero c p A a = Ok a' /\ an a' = zlen l + zlen m /\ zlen (buf a') = zlen l + zlen m /\
    (forall i, 0 <= i < p -> znth (buf a') i = znth l i) /\
    (forall i, 0 <= i < zlen m -> znth (buf a') (p + i) = znth m i) /\
    (forall i, p <= i < zlen l -> znth (buf a') (i + zlen m) = znth l i).
Proof.
  intros Hc Hr HA Hp HL. pose proof (zlen_nonneg m). destruct (arr_insert_arr_ok zero c Hc a l A m p) as (a' & E & [B N]); auto. exists a'. split; [assumption|].
  assert (zlen (firstn (Z.to_nat p) l) = p) as LF by (rewrite zlen_firstn; lia).
  assert (zlen (buf a') = zlen l + zlen m) as L by (rewrite B, !zlen_app, LF, zlen_skipn; lia).
  split; [congruence|]. split; [assumption|]. rewrite B. split; [|split]; intros i Hi.
  - rewrite znth_app_l by lia. rewrite znth_firstn by lia. now replace (i <? p) with true by lia.
  - rewrite znth_app_r by lia. rewrite LF. rewrite znth_app_l by lia. f_equal. lia.
  - rewrite znth_app_r by lia. rewrite LF. rewrite znth_app_r by lia. rewrite znth_skipn by lia. f_equal. lia.
Qed.
Lemma invalid_thm c a l : rep a l -> checked c = true ->
  (forall n pr, n < 0 -> arr_resize zero c n pr a = Fail (report c)) /\
  (forall p x, ~ 0 <= p <= zlen l -> arr_insert zero c p x a = Fail (report c)) /\
  (forall p A, ~ 0 <= p <= zlen l -> arr_insert_arr zero c p A a = Fail (report c)).
Proof.
  intros Hr Hk. split; [|split].
  - intros. eapply arr_resize_neg; eauto.
  - intros. eapply arr_insert_bad; eauto.
  - intros p A H. unfold arr_insert_arr. rewrite (proj2 Hr). replace ((0 <=? p) && (p <=? zlen l)) with false by lia.
    now rewrite check_debug_false.
Qed.

(** C26 *)
Lemma remove_ub_iff_thm c a l p k : cfg_ok c -> rep a l -> zlen l <= amax c -> checked c = true -> is_long p -> is_long k ->
  (arr_remove zero c p k a = UB <-> 0 < k /\ 0 <= p < zlen l /\ LONG_MAX < p + k) /\
  (arr_remove zero c p k a = Fail (report c) <-> ~ (0 < k /\ 0 <= p /\ p + k <= zlen l) /\ ~ (0 < k /\ 0 <= p < zlen l /\ LONG_MAX < p + k)).
Proof.
  intros Hc Hr HL Hk Hp Hkk. unfold cfg_ok in Hc.
  destruct ((0 <? k) && (0 <=? p) && (p + k <=? zlen l)) eqn:G.
  - destruct (arr_remove_ok zero c Hc a l p k) as (a' & -> & _); auto; try lia.
    split; (split; [discriminate|intros; lia]).
  - rewrite (arr_remove_bad zero c a l p k); auto; try lia.
    destruct ((0 <? k) && (0 <=? p) && (p <? zlen l) && (LONG_MAX <? p + k)) eqn:G2.
    + split; split; try discriminate; try reflexivity; intros; lia.
    + split; split; try discriminate; try reflexivity; intros; lia.
Qed.
Lemma remove_back_ub_iff_thm c a l k : cfg_ok c -> rep a l -> zlen l <= amax c -> checked c = true -> is_long k ->
  (arr_remove_back zero c k a = UB <-> LONG_MAX < zlen l - k) /\
  (arr_remove_back zero c k a = Fail (report c) <-> zlen l - k <= LONG_MAX /\ ~ 0 < k <= zlen l).
Proof.
  intros Hc Hr HL Hk Hkk. unfold arr_remove_back. rewrite (proj2 Hr). pose proof (zlen_nonneg l). unfold cfg_ok, is_long in *.
  destruct (Z.ltb_spec LONG_MAX (zlen l - k)).
  - unfold lsub. rewrite lret_ub by lia. split; split; try discriminate; try reflexivity; intros; lia.
  - rewrite lsub_ok by (unfold LONG_MIN, LONG_MAX in *; lia). cbn [bind].
    destruct (remove_ub_iff_thm c a l (zlen l - k) k) as [H1 H2]; auto; [unfold is_long, LONG_MIN, LONG_MAX in *; lia|].
    rewrite H1, H2. unfold LONG_MIN, LONG_MAX in *. split; lia.
Qed.

(** C25 *)
Lemma run1_thm c ops : cfg_ok c -> checked c = true -> Forall op_long ops ->
  snd (run (step1 zero c) [] ops) = snd (run (spec_step1 zero c) [] ops) /\
  match fst (run (spec_step1 zero c) [] ops) with
  | Next w ob => exists st, fst (run (step1 zero c) [] ops) = Next st ob /\ Forall2 rep st w
  | Crash => fst (run (step1 zero c) [] ops) = Crash
  end.
Proof.
  intros Hc Hk HO. destruct (run1_refines zero c Hc [] [] ops Hk (Forall2_nil _) HO) as [H1 H2]. split; [assumption|].
  unfold rsim in H2. destruct (fst (run (spec_step1 zero c) [] ops)); [|assumption].
  destruct H2 as (st & E & H). exists st. split; [assumption|]. unfold represents in H. clear -H. induction H; constructor; tauto.
Qed.
Lemma run1_any_thm c ops : cfg_ok c -> Forall op_long ops -> valid_run (spec_step1 zero c) [] ops ->
  snd (run (step1 zero c) [] ops) = snd (run (spec_step1 zero c) [] ops) /\
  exists w ob st, fst (run (spec_step1 zero c) [] ops) = Next w ob /\ fst (run (step1 zero c) [] ops) = Next st ob /\ Forall2 rep st w.
Proof.
  intros Hc HO HV. destruct (run1_refines_any zero c Hc [] [] ops (Forall2_nil _) HO HV) as [H1 H2]. split; [assumption|].
  assert (fst (run (spec_step1 zero c) [] ops) <> Crash) as NC.
  { clear -HV. revert HV. generalize (@nil (list V)). induction ops as [|o ops IH]; intros w HV; [discriminate|].
    cbn [run valid_run] in *. destruct (spec_step1 zero c w o) as [w' ob|]; [|contradiction].
    assert (valid_run (spec_step1 zero c) w' ops) as HV' by (destruct ob; tauto). specialize (IH _ HV').
    destruct (run (spec_step1 zero c) w' ops) as [r t]. destruct ob; simpl in *; auto. destruct (fatal f); [discriminate|exact IH]. }
  unfold rsim in H2. destruct (fst (run (spec_step1 zero c) [] ops)) as [w ob|]; [|contradiction].
  destruct H2 as (st & E & H). exists w, ob, st. split; [reflexivity|]. split; [assumption|].
  unfold represents in H. clear -H. induction H; constructor; tauto.
Qed.
(** A reported failure leaves every array as it was. *)
Lemma failed_unchanged_thm c st w o f : cfg_ok c -> checked c = true -> represents c st w -> op_long o ->
  forall st', step1 zero c st o = Next st' (Failed f) -> st' = st.
Proof.
  intros Hc Hk H HO st' E.
  destruct o as [n|n x|l|j|j|j s|i x|i l|i j|i j|i j|i n pr|i j|i j|i p k|i k|i k|i k|i v|i p x|i x|i x|i p j|i j|i j|i ix x|i ix|i];
    cbn [step1] in E; unfold with2, with1, push, put, seen in E;
    repeat match type of E with
    | match znth ?s ?i with _ => _ end = _ => destruct (znth s i) eqn:?; [|discriminate]
    | (if ?b then _ else _) = _ => destruct b; [discriminate|]
    | Next _ _ = Next _ _ => congruence
    | (let (_, _) := ?x in _) = _ => destruct x eqn:?
    | match ?m with Ok _ => _ | Fail _ => _ | UB => _ end = _ => destruct m as [?|?|] eqn:?; try discriminate
    end; try congruence; try discriminate.
  - (* AssignList *)
    pose proof (rp_nth c st w i H) as Hi. destruct (znth w i) as [l0|] eqn:Ew; [|congruence]. destruct Hi as (a0 & Ea & Hr & HL).
    replace a0 with a in * by congruence.
    pose proof (sim_assign c a l0 (src_of_list l) l Hr HL (produces_list l) (or_introl Hk)) as Hs. unfold arr_assign_list, guard in *.
    destruct (zlen l0 =? zlen l); [destruct Hs as (a' & E' & _); rewrite E' in E; discriminate|].
    rewrite Hs in E. simpl in E. injection E as <- _. now apply zupd_id.
  - (* Assign *)
    pose proof (rp_nth c st w i H) as Hi. destruct (znth w i) as [l0|] eqn:Ew; [|congruence]. destruct Hi as (a1 & Ea & Hr & HL).
    replace a1 with a in * by congruence.
    pose proof (rp_nth c st w j H) as Hj. destruct (znth w j) as [m|] eqn:Ew'; [|congruence]. destruct Hj as (a2 & Eb & Hr' & HL').
    replace a2 with a0 in * by congruence.
    pose proof (sim_assign c a l0 (src_of_arr a0) m Hr HL (produces_arr _ _ Hr') (or_introl Hk)) as Hs. unfold arr_assign_arr, guard in *.
    destruct (zlen l0 =? zlen m); [destruct Hs as (a' & E' & _); rewrite E' in E; discriminate|].
    rewrite Hs in E. simpl in E. injection E as <- _. now apply zupd_id.
Qed.
End T.
