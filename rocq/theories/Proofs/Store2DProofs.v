From Coq Require Import Sorting.Sorted.
From Verif Require Import Base.Outcome Base.ZList Model.IntModel Model.ScalarOps Model.Index Model.Slice Model.Array1D Model.Array2D Model.Store1D Model.Store2D.
From Verif Require Import Spec.ArraySpec Spec.SliceSpec Spec.Store1DSpec Spec.MatrixSpec Spec.Matrix2Spec Spec.Store2DSpec.
From Verif Require Import Proofs.ScalarProofs Proofs.Array1DProofs Proofs.SliceProofs Proofs.ViewProofs Proofs.Store1DProofs Proofs.MatrixProofs Proofs.Array2DProofs Proofs.Array2DSim Proofs.Array2DSim2 Proofs.Array2DSim3.
Ltac Zify.zify_post_hook ::= Z.div_mod_to_equations.

(** Simulation of stores, for any relation between concrete and abstract arrays. *)
Section G.
Context {X Y V : Type} (R : X -> Y -> Prop) (c : cfg).
Notation rp := (Forall2 R).
Definition osimR (m : outcome X) (n : outcome Y) : Prop :=
  match n with Ok l => exists a, m = Ok a /\ R a l | Fail f => m = Fail f | UB => m = UB end.
Definition rsimR (r : res (list X) V) (s : res (list Y) V) : Prop :=
  match s with Next w ob => exists st, r = Next st ob /\ rp st w | Crash => r = Crash end.
Notation covered_res := (covered_res c).
Lemma R_nth st w i : rp st w ->
  match znth w i with Some l => exists a, znth st i = Some a /\ R a l | None => znth st i = None end.
Proof.
  intros H. unfold znth. destruct (i <? 0); [reflexivity|]. generalize (Z.to_nat i). clear i. 
  induction H as [|a l st w H1 HF IH]; intros [|k]; simpl; auto; [exists a; auto|apply IH].
Qed.
Lemma R_upd st w i a l : rp st w -> R a l -> rp (zupd st i a) (zupd w i l).
Proof.
  intros H Hr. unfold zupd. destruct (i <? 0); [assumption|]. generalize (Z.to_nat i). clear i.
  induction H as [|a0 l0 st w H1 HF IH]; intros [|k]; simpl; try (constructor; auto; fail); constructor; auto; apply IH.
Qed.
Lemma R_app st w a l : rp st w -> R a l -> rp (st ++ [a]) (w ++ [l]).
Proof. intros H Hr. apply Forall2_app; [assumption|]. now constructor. Qed.
Lemma R_with1 st w i (k : X -> res _ V) (k' : Y -> res _ V) :
  rp st w -> covered_res (swith1 w i k') ->
  (forall a l, znth st i = Some a -> znth w i = Some l -> R a l -> covered_res (k' l) -> rsimR (k a) (k' l)) ->
  rsimR (with1 st i k) (swith1 w i k').
Proof.
  intros H Hcov Hk. unfold with1, swith1 in *. pose proof (R_nth st w i H) as Hi. destruct (znth w i) as [l|] eqn:Ew.
  - destruct Hi as (a & Ea & Hr). rewrite Ea. now apply Hk.
  - rewrite Hi. simpl. eauto.
Qed.
Lemma R_push st w m n : rp st w -> covered_res (spush (V := V) w n) -> (covered c n -> osimR m n) -> rsimR (push st m) (spush w n).
Proof.
  intros H Hcov Hs. unfold push, spush in *. unfold covered, Store1DProofs.covered_res, osimR in *. destruct n as [l|f|].
  - destruct Hs as (a & -> & Hr); [auto|]. simpl. eexists. split; [reflexivity|]. now apply R_app.
  - rewrite Hs by tauto. simpl. eauto.
  - rewrite Hs by tauto. reflexivity.
Qed.
Lemma R_put st w i m n : rp st w -> covered_res (sput (V := V) w i n) -> (covered c n -> osimR m n) -> rsimR (put st i m) (sput w i n).
Proof.
  intros H Hcov Hs. unfold put, sput in *. unfold covered, Store1DProofs.covered_res, osimR in *. destruct n as [l|f|].
  - destruct Hs as (a & -> & Hr); [auto|]. simpl. eexists. split; [reflexivity|]. now apply R_upd.
  - rewrite Hs by tauto. simpl. eauto.
  - rewrite Hs by tauto. reflexivity.
Qed.
End G.

Section P.
Context {V : Type} (zero : V) (c : cfg).
Hypothesis Hc : cfg_ok c.
Let RR (a : arr2 V) M := rep2 a M /\ small c M.
Notation rp := (represents2 c).
Notation rs := (rsimR RR).

Lemma to_R m n : osim2 c m n -> osimR RR m n.
Proof. destruct n as [M|f|]; simpl; auto. Qed.
Lemma empty_R : RR arr2_empty [].
Proof. split; [split; [apply wfm_nil|repeat split]|]. unfold small. cbn. unfold cfg_ok in Hc. lia. Qed.

Lemma long_one : is_long 1. Proof. unfold is_long, LONG_MIN, LONG_MAX. lia. Qed.
Lemma long_zero : is_long 0. Proof. unfold is_long, LONG_MIN, LONG_MAX. lia. Qed.

Lemma arr_fresh b N : rep2 b N -> small c N ->
  osim2 c (arr2_resize_and_assign_arr zero c b) (room2 c (zlen N) (ncols N) (Ok N)).
Proof.
  intros H1 H2. rewrite room2_small; auto; [now apply sim2_arr|apply H1].
Qed.

Ltac w1 := apply (R_with1 RR c); [assumption|assumption|].
Ltac w2 := w1; intros a M Ha HM [Hr HS] Hcv; w1; intros b N Hb HN [Hr' HS'] Hcv'.
Theorem step2_refines st w o : rp st w -> op2_long o -> odd_move c w o = false -> covered_res c (spec_step2 zero c w o) ->
  rs (step2 zero c st o) (spec_step2 zero c w o).
Proof.
  intros H HO Ho Hcov. change (Forall2 RR st w) in H. pose proof long_one as I1. pose proof long_zero as I0.
  destruct o; cbn [step2 spec_step2 op2_long] in *; unfold with2, swith2 in *.
  - apply (R_push RR c); auto. intros. apply to_R. now apply sim2_new.
  - apply (R_push RR c); auto. intros. apply to_R. now apply sim2_new_fill.
  - apply (R_push RR c); auto. intros. apply to_R. now apply sim2_list.
  - w1. intros b N Hb HN [Hr HS] Hcv. apply (R_push RR c); auto. intros _. apply to_R. now apply sim2_copy.
  - w1. intros b N Hb HN [Hr HS] Hcv. simpl. eexists. split; [reflexivity|]. apply R_app; [|now split]. apply R_upd; [assumption|]. apply empty_R.
  - w1. intros a M Ha HM [Hr HS] Hcv. apply (R_put RR c); auto. intros _. apply to_R. now apply sim2_set_all.
  - w1. intros a M Ha HM [Hr HS] Hcv. apply (R_put RR c); auto. intros Hcov'. apply to_R. now apply sim2_assign_list.
  - w2. destruct (Z.eqb_spec i j) as [->|Hne].
    + rewrite Ha in Hb. injection Hb as <-. rewrite HM in HN. injection HN as <-.
      unfold same_shape. rewrite !Z.eqb_refl. simpl. eexists. split; [reflexivity|]. now rewrite (zupd_id _ _ _ _ HM).
    + assert (covered c (guard c (same_shape M N) (Ok N))) as Hcov'.
      { unfold covered, covered_res, guard in *. destruct (same_shape M N); simpl in *; auto. }
      pose proof (sim2_assign_arr c a M Hr HS b N Hr' HS' Hcov') as Hs. change (same_dims M N) with (same_shape M N) in Hs.
      unfold guard in *. destruct (same_shape M N).
      * destruct Hs as (a' & -> & Hr2 & HL'). simpl. eexists. split; [reflexivity|]. apply R_upd; [assumption|now split].
      * rewrite Hs. simpl. eexists. split; [reflexivity|]. now rewrite (zupd_id _ _ _ _ Ha).
  - w2. cbn [odd_move] in Ho. rewrite HM, HN in Ho. destruct (Z.eqb_spec i j) as [->|Hne].
    + rewrite Ha in Hb. injection Hb as <-. rewrite HM in HN. injection HN as <-.
      assert (M = []) as -> by (apply zlen_zero; lia). simpl. eexists. split; [reflexivity|].
      assert (arr2_move_assign_self a = a) as ->.
      { destruct Hr as (_ & E1 & E2 & _). destruct a; simpl in *. unfold arr2_move_assign_self, arr_move_assign_self. simpl. now subst. }
      now rewrite (zupd_id _ _ _ _ Ha).
    + destruct (same_shape M N) eqn:G.
      * destruct (move_assign_same c a M Hr b N Hr' G) as (a' & -> & Hr2). simpl. eexists. split; [reflexivity|].
        apply R_upd; [|apply empty_R]. apply R_upd; [assumption|now split].
      * assert (dbg c = true /\ ndbg c = false) as [Ed En] by (cbn in Ho; destruct (dbg c), (ndbg c); try discriminate; auto).
        simpl. exists st. split; [|assumption]. unfold arr2_move_assign. pose proof Hr as (_ & -> & -> & _). pose proof Hr' as (_ & -> & -> & _).
        change (same_size2 (zlen M) (ncols M) (zlen N) (ncols N)) with (same_shape M N). rewrite G. unfold check_normal. rewrite Ed, En. reflexivity.
  - w2. simpl. eexists. split; [reflexivity|]. apply R_upd; [|now split]. apply R_upd; [assumption|now split].
  - w1. intros a M Ha HM [Hr HS] Hcv. apply (R_put RR c); auto. intros. apply to_R. now apply sim2_resize.
  - w2. apply (R_put RR c); auto. intros. apply to_R. now apply sim2_arr.
  - w2. destruct (Z.eqb_spec i j) as [->|Hne]; simpl.
    + eexists. split; [reflexivity|]. rewrite zupd_twice by now apply znth_lt in HM. apply R_upd; [assumption|apply empty_R].
    + eexists; split; [reflexivity|]; apply R_upd; [apply R_upd; [assumption|now split]|apply empty_R].
  - w1. intros a M Ha HM [Hr HS] Hcv. apply (R_put RR c); auto. intros. apply to_R. now apply sim2_remove_rows.
  - w1. intros a M Ha HM [Hr HS] Hcv. apply (R_put RR c); auto. intros. apply to_R. now apply sim2_remove_cols.
  - w1. intros a M Ha HM [Hr HS] Hcv. apply (R_put RR c); auto. intros. apply to_R. now apply sim2_remove_rows.
  - w1. intros a M Ha HM [Hr HS] Hcv. apply (R_put RR c); auto. intros. apply to_R. now apply sim2_remove_cols.
  - w1. intros a M Ha HM [Hr HS] Hcv. apply (R_put RR c); auto. intros. apply to_R.
    pose proof (dims_long2 c Hc a M Hr HS) as [D1 D2]. unfold arr2_remove_row_last. pose proof Hr as (_ & -> & _).
    rewrite lsub_ok by (unfold LONG_MIN, LONG_MAX in *; lia). cbn [bind]. apply sim2_remove_rows; auto. unfold is_long, LONG_MIN, LONG_MAX in *; lia.
  - w1. intros a M Ha HM [Hr HS] Hcv. apply (R_put RR c); auto. intros. apply to_R.
    pose proof (dims_long2 c Hc a M Hr HS) as [D1 D2]. unfold arr2_remove_col_last. pose proof Hr as (_ & _ & -> & _).
    rewrite lsub_ok by (unfold LONG_MIN, LONG_MAX in *; lia). cbn [bind]. apply sim2_remove_cols; auto. unfold is_long, LONG_MIN, LONG_MAX in *; lia.
  - w1. intros a M Ha HM [Hr HS] Hcv. apply (R_put RR c); auto. intros. apply to_R. now apply sim2_remove_rows.
  - w1. intros a M Ha HM [Hr HS] Hcv. apply (R_put RR c); auto. intros. apply to_R. unfold arr2_remove_rows_back. pose proof Hr as (_ & -> & _).
    unfold lsub at 1, lret. destruct (in_long (zlen M - count)) eqn:E; [cbn [bind]|reflexivity].
    apply in_long_spec in E. now apply sim2_remove_rows.
  - w1. intros a M Ha HM [Hr HS] Hcv. apply (R_put RR c); auto. intros. apply to_R. now apply sim2_remove_cols.
  - w1. intros a M Ha HM [Hr HS] Hcv. apply (R_put RR c); auto. intros. apply to_R. unfold arr2_remove_cols_back. pose proof Hr as (_ & _ & -> & _).
    unfold lsub at 1, lret. destruct (in_long (ncols M - count)) eqn:E; [cbn [bind]|reflexivity].
    apply in_long_spec in E. now apply sim2_remove_cols.
  - w1. intros a M Ha HM [Hr HS] Hcv. apply (R_put RR c); auto. intros. apply to_R. now apply sim2_remove_rows_idx.
  - w1. intros a M Ha HM [Hr HS] Hcv. apply (R_put RR c); auto. intros. apply to_R. now apply sim2_remove_cols_idx.
  - w2. apply (R_put RR c); auto. intros. apply to_R. apply sim2_insert_rows; auto; [now apply (produces2_arr zero c)|]. intros _. now apply arr_fresh.
  - w2. apply (R_put RR c); auto. intros. apply to_R. apply sim2_insert_cols; auto; [now apply (produces2_arr zero c)|]. intros _. now apply arr_fresh.
  - w2. apply (R_put RR c); auto. intros. apply to_R. apply sim2_insert_rows; auto; [now apply (produces2_arr zero c)|]. intros _. now apply arr_fresh.
  - w2. apply (R_put RR c); auto. intros. apply to_R. pose proof Hr as (_ & -> & _).
    apply sim2_insert_rows; auto; [now apply (produces2_arr zero c)|]. intros _. now apply arr_fresh.
  - w2. apply (R_put RR c); auto. intros. apply to_R. apply sim2_insert_cols; auto; [now apply (produces2_arr zero c)|]. intros _. now apply arr_fresh.
  - w2. apply (R_put RR c); auto. intros. apply to_R. pose proof Hr as (_ & _ & -> & _).
    apply sim2_insert_cols; auto; [now apply (produces2_arr zero c)|]. intros _. now apply arr_fresh.
  - w1. intros a M Ha HM [Hr HS] Hcv. apply (R_put RR c); auto. intros. apply to_R. apply sim2_insert_row; auto. apply produces_list.
  - w1. intros a M Ha HM [Hr HS] Hcv. apply (R_put RR c); auto. intros. apply to_R. apply sim2_insert_col; auto. apply produces_list.
  - w1. intros a M Ha HM [Hr HS] Hcv. apply (R_put RR c); auto. intros. apply to_R. apply sim2_insert_row; auto. apply produces_list.
  - w1. intros a M Ha HM [Hr HS] Hcv. apply (R_put RR c); auto. intros. apply to_R. pose proof Hr as (_ & -> & _).
    apply sim2_insert_row; auto. apply produces_list.
  - w1. intros a M Ha HM [Hr HS] Hcv. apply (R_put RR c); auto. intros. apply to_R. apply sim2_insert_col; auto. apply produces_list.
  - w1. intros a M Ha HM [Hr HS] Hcv. apply (R_put RR c); auto. intros. apply to_R. pose proof Hr as (_ & _ & -> & _).
    apply sim2_insert_col; auto. apply produces_list.
  - w1. intros a M Ha HM [Hr HS] Hcv. apply (R_put RR c); auto. intros. apply to_R. now apply sim2_write.
  - w1. intros a M Ha HM [Hr HS] Hcv.
    rewrite (sim2_read zero c Hc a M Hr HS) by (try apply HO; unfold covered, covered_res in *;
      destruct (spec_at2 c M ix jx (fun p q => match mget M p q with Some v => Ok v | None => UB end)); auto).
    destruct (spec_at2 c M ix jx (fun p q => match mget M p q with Some v => Ok v | None => UB end)); simpl; eauto.
  - w1. intros a M Ha HM [Hr HS] Hcv. simpl. pose proof Hr as (_ & -> & _). eauto.
  - w1. intros a M Ha HM [Hr HS] Hcv. simpl. pose proof Hr as (_ & _ & -> & _). eauto.
  - w1. intros a M Ha HM [Hr HS] Hcv. simpl. rewrite (rep2_an a M Hr). eauto.
Qed.

Theorem run2_refines st w ops : checked c = true -> rp st w -> Forall op2_long ops -> tame zero c w ops ->
  snd (run (step2 zero c) st ops) = snd (run (spec_step2 zero c) w ops) /\
  rs (fst (run (step2 zero c) st ops)) (fst (run (spec_step2 zero c) w ops)).
Proof.
  intros Hk. revert st w. induction ops as [|o ops IH]; intros st w H HO HT.
  - simpl. split; [reflexivity|]. eauto.
  - apply Forall_cons_iff in HO as [HO1 HO2]. destruct HT as [HT1 HT2].
    pose proof (step2_refines st w o H HO1 HT1 (or_introl Hk)) as Hs. cbn [run].
    destruct (spec_step2 zero c w o) as [w' ob|]; simpl in Hs.
    + destruct Hs as (st' & -> & H'). specialize (IH st' w' H' HO2 HT2).
      destruct (run (step2 zero c) st' ops) as [r t], (run (spec_step2 zero c) w' ops) as [r' t'].
      simpl in IH. destruct IH as [-> IH].
      destruct ob; simpl; auto. destruct (fatal f); simpl; auto. split; [reflexivity|]. eauto.
    + rewrite Hs. simpl. split; reflexivity.
Qed.
Theorem run2_refines_any st w ops : rp st w -> Forall op2_long ops -> tame zero c w ops -> valid_run (spec_step2 zero c) w ops ->
  snd (run (step2 zero c) st ops) = snd (run (spec_step2 zero c) w ops) /\
  rs (fst (run (step2 zero c) st ops)) (fst (run (spec_step2 zero c) w ops)).
Proof.
  revert st w. induction ops as [|o ops IH]; intros st w H HO HT HV.
  - simpl. split; [reflexivity|]. eauto.
  - apply Forall_cons_iff in HO as [HO1 HO2]. destruct HT as [HT1 HT2]. cbn [valid_run run] in *.
    pose proof (step2_refines st w o H HO1 HT1) as Hs. unfold covered_res in Hs.
    destruct (spec_step2 zero c w o) as [w' ob|]; simpl in Hs; [|contradiction].
    assert (valid_run (spec_step2 zero c) w' ops) as HV' by (destruct ob; tauto).
    destruct Hs as (st' & -> & H'); [destruct ob; tauto|]. specialize (IH st' w' H' HO2 HT2 HV').
    destruct (run (step2 zero c) st' ops) as [r t], (run (spec_step2 zero c) w' ops) as [r' t'].
    simpl in IH. destruct IH as [-> IH].
    destruct ob; simpl; auto. destruct (fatal f); simpl; auto. split; [reflexivity|]. eauto.
Qed.
(** A run that ends in undefined behaviour in the model does so in the abstract run. *)
Lemma valid_not_crash (w : list (list (list V))) ops : valid_run (spec_step2 zero c) w ops -> fst (run (spec_step2 zero c) w ops) <> Crash.
Proof.
  revert w. induction ops as [|o ops IH]; intros w HV; [discriminate|].
  cbn [run valid_run] in *. destruct (spec_step2 zero c w o) as [w' ob|]; [|contradiction].
  assert (valid_run (spec_step2 zero c) w' ops) as HV' by (destruct ob; tauto). specialize (IH _ HV').
  destruct (run (spec_step2 zero c) w' ops) as [r t]. destruct ob; simpl in *; auto. destruct (fatal f); [discriminate|exact IH].
Qed.
Lemma failed2_unchanged st w o f : checked c = true -> rp st w -> op2_long o -> odd_move c w o = false ->
  forall st', step2 zero c st o = Next st' (Failed f) -> st' = st.
Proof.
  intros Hk H HO Ho st' E. change (Forall2 RR st w) in H.
  destruct o; cbn [step2] in E; unfold with2, with1, push, put, seen in E;
    repeat match type of E with
    | match znth ?s ?i with _ => _ end = _ => destruct (znth s i) eqn:?; [|discriminate]
    | (if ?b then _ else _) = _ => destruct b; [discriminate|]
    | Next _ _ = Next _ _ => congruence
    | (let (_, _) := ?x in _) = _ => destruct x eqn:?
    | match ?m with Ok _ => _ | Fail _ => _ | UB => _ end = _ => destruct m as [?|?|] eqn:?; try discriminate
    end; try congruence; try discriminate.
  (* Assign2 *)
  pose proof (R_nth RR st w i H) as Hi. destruct (znth w i) as [M|] eqn:Ew; [|congruence]. destruct Hi as (a1 & Ea & Hr & HS).
  replace a1 with a in * by congruence.
  pose proof (R_nth RR st w j H) as Hj. destruct (znth w j) as [N|] eqn:Ew'; [|congruence]. destruct Hj as (a2 & Eb & Hr' & HS').
  replace a2 with a0 in * by congruence.
  pose proof (sim2_assign_arr c a M Hr HS a0 N Hr' HS' (or_introl Hk)) as Hs. unfold guard in *.
  destruct (same_dims M N); [destruct Hs as (a' & E' & _); rewrite E' in E; discriminate|].
  rewrite Hs in E. simpl in E. injection E as <- _. now apply zupd_id.
Qed.
End P.
