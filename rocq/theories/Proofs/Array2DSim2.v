(** Continuation of Array2DSim.v: removal by index list, insertion, element access, assignment. *)
From Coq Require Import Sorting.Sorted.
From Verif Require Import Base.Outcome Base.ZList Model.IntModel Model.ScalarOps Model.Index Model.Slice Model.Array1D Model.Array2D Model.Store1D.
From Verif Require Import Spec.ArraySpec Spec.SliceSpec Spec.Store1DSpec Spec.MatrixSpec Spec.Matrix2Spec.
From Verif Require Import Proofs.ScalarProofs Proofs.Array1DProofs Proofs.SliceProofs Proofs.ViewProofs Proofs.Store1DProofs Proofs.MatrixProofs Proofs.Array2DProofs Proofs.Array2DSim.
Ltac Zify.zify_post_hook ::= Z.div_mod_to_equations.

Lemma keep_nil {X} (l : list X) : keep l [] = l.
Proof.
  pose proof (zlen_nonneg l).
  unfold keep. cbn [existsb negb]. 
  assert (filter (fun _ : Z => true) (all_positions (zlen l)) = all_positions (zlen l)) as ->.
  { induction (all_positions (zlen l)) as [|y ys IH]; simpl; congruence. }
  rewrite all_positions_affine. apply list_ext_znth. intros i Hi.
  rewrite znth_pick.
  - destruct (Z.ltb_spec i (zlen l)).
    + unfold all_positions. rewrite znth_map_zseq by lia. f_equal. lia.
    + rewrite !znth_none; auto; [lia|]. unfold all_positions. rewrite zlen_map, zlen_zseq. lia.
  - apply Forall_forall. intros p Hp. apply in_map_iff in Hp as (j & <- & Hj). apply in_zseq in Hj. lia.
Qed.
(** The positions that survive. *)
Definition rest (n : Z) (v : list Z) : list Z := filter (fun p => negb (existsb (Z.eqb p) v)) (all_positions n).
Lemma rest_range n v : 0 <= n -> Forall (fun p => 0 <= p < n) (rest n v).
Proof. intros Hn. apply Forall_forall. intros p Hp. apply filter_In in Hp as [Hp _]. apply in_zseq in Hp. lia. Qed.
Lemma rest_len n v : 0 <= n -> zlen (rest n v) <= n.
Proof.
  intros Hn. destruct (sorted_range_length n (rest n v)); [apply sorted_filter, sorted_zseq|now apply rest_range|assumption|].
  rewrite H. cbn. lia.
Qed.
Lemma zlen_keep {X} (l : list X) v : zlen (keep l v) = zlen (rest (zlen l) v).
Proof. unfold keep. apply zlen_pick. apply rest_range, zlen_nonneg. Qed.
Lemma znth_keep {X} (l : list X) v i : znth (keep l v) i = match znth (rest (zlen l) v) i with Some p => znth l p | None => None end.
Proof. unfold keep. apply znth_pick. apply rest_range, zlen_nonneg. Qed.

Section P.
Context {V : Type} (zero : V) (c : cfg).
Hypothesis Hc : cfg_ok c.
Implicit Types (a : arr2 V) (M N : list (list V)) (A : src2 V) (b : list V).
Notation osim2 := (osim2 c).
Notation small := (small c).

Lemma room2_small N : wfm N -> small N -> room2 c (zlen N) (ncols N) (Ok N) = Ok N.
Proof.
  intros Hw Hs. pose proof (amax_long c Hc). unfold room2, room. unfold Array2DSim.small in Hs. pose proof (zlen_nonneg N). pose proof (ncols_nonneg N).
  rewrite in_long_true by (unfold LONG_MIN; nia). now replace (amax c <? zlen N * ncols N) with false by lia.
Qed.

Section Ops.
Variables (a : arr2 V) (M : list (list V)).
Hypothesis Hr : rep2 a M.
Hypothesis HM : small M.
Let Hw : wfm M. Proof. apply Hr. Qed.
Let Hrect : rect (ncols M) M. Proof. apply wfm_rect, Hr. Qed.
Let Hshape := rep2_shape a M Hr.
Let HPA : produces2 (src_of_arr2 a) M := produces2_arr zero c Hc a M Hr HM.
Let Hrows : drows a = zlen M. Proof. apply Hr. Qed.
Let Hcols : dcols a = ncols M. Proof. apply Hr. Qed.
Let HPU := un2_ok zero c Hc a M Hr HM.

Lemma sim2_remove_rows_idx v : covered c (spec_remove_rows_idx c M v) ->
  osim2 (arr2_remove_rows_idx zero c v a) (spec_remove_rows_idx c M v).
Proof.
  intros Hcov. pose proof (amax_long c Hc). pose proof (zlen_nonneg M) as Hnn. pose proof (ncols_nonneg M) as Hnc.
  unfold spec_remove_rows_idx, guard in *. destruct v as [|x v].
  - cbn [increasing forallb andb]. exists a. rewrite keep_nil. auto.
  - set (w := x :: v) in *. unfold arr2_remove_rows_idx. fold w. change (match w with [] => Ok a | _ => ?X end) with X.
    rewrite Hrows. destruct (increasing w && forallb (in_range (zlen M)) w) eqn:G.
    + apply andb_true_iff in G as [G1 G2]. apply increasing_spec in G1. apply in_range_forall in G2.
      unfold w at 1. rewrite complement_index_vector_ok by (auto; lia). fold w. cbn [bind].
      fold (rest (zlen M) w). set (u := rest (zlen M) w).
      pose proof (rest_range (zlen M) w Hnn) as HU. pose proof (rest_len (zlen M) w Hnn) as LU. fold u in HU, LU.
      pose proof (zlen_nonneg u) as Hu. rewrite Hcols.
      assert (zlen (keep M w) = zlen u) as LK by apply zlen_keep.
      destruct (Z.eqb_spec (zlen u) 0) as [E0|E0].
      * rewrite E0. rewrite arr2_new_ok by (auto; lia). cbn [bind drows dcols dat buf an]. rewrite for_empty by lia. cbn [bind].
        eexists. split; [reflexivity|]. rewrite E0 in LK. apply zlen_zero in LK. rewrite LK.
        split; [split; [apply wfm_nil|repeat split]|]. unfold Array2DSim.small. cbn. lia.
      * assert (0 < ncols M) as Hn. { apply wfm_zero in Hw. lia. }
        assert (shape_ok (zlen u) (ncols M) = true) as Hs by (apply shape_ok_true; lia).
        unfold Array2DSim.small in HM. assert (zlen u * ncols M <= zlen M * ncols M) by nia.
        rewrite arr2_new_ok by (auto; lia). cbn [bind drows dcols dat buf an].
        set (b0 := repeat zero _). assert (zlen b0 = zlen u * ncols M) as L0 by (apply zlen_repeat; nia).
        destruct (rect_fill (zlen u) (ncols M) (zlen u) (ncols M) 0 0 (fun i j => mval zero M (nthd 0 u i) j)
          (fun i j b => p <- oget u i ;; v <- un2 a p j ;; set2 (ncols M) b i j v) b0) as (b & E & L & GG); auto; try lia.
        { intros i j s Hi Hj. rewrite (oget_nthd 0) by lia. cbn [bind].
          assert (0 <= nthd 0 u i < zlen M) as Hp.
          { unfold nthd. destruct (znth_some u i Hi) as [p Hp]. rewrite Hp. rewrite Forall_forall in HU. apply HU. now apply znth_in in Hp. }
          rewrite HPU by lia. cbn [bind]. now rewrite !Z.add_0_r. }
        rewrite E. cbn [bind]. eexists. split; [reflexivity|].
        match goal with |- rep2 ?x ?y /\ _ => assert (rep2 x y) as HR end;
          [|split; [exact HR|unfold Array2DSim.small; rewrite (size_of _ _ _ _ _ HR); lia]].
        apply rep2_intro; auto.
        -- apply Forall_forall. intros r Hin. apply in_znth in Hin as (i & Hi). rewrite znth_keep in Hi. fold u in Hi.
           destruct (znth u i) as [p|]; [|discriminate]. now apply (rect_nth _ M p).
        -- intros i j Hi Hj. rewrite GG by assumption.
           replace ((0 <=? i) && (i <? 0 + zlen u) && (0 <=? j) && (j <? 0 + ncols M)) with true by lia.
           rewrite !Z.sub_0_r. unfold mget at 1. rewrite znth_keep. fold u. unfold nthd.
           destruct (znth_some u i Hi) as [p Hp]. rewrite Hp.
           apply (mval_some zero (ncols M)); auto. rewrite Forall_forall in HU. apply HU. now apply znth_in in Hp.
    + unfold Array2DSim.osim2. rewrite complement_index_vector_bad; [reflexivity| |].
      * eapply covered_checked; eauto.
      * intros [H1 H2]. apply increasing_spec in H1. apply in_range_forall in H2. unfold w in *. rewrite H1, H2 in G. discriminate.
Qed.

Lemma sim2_remove_cols_idx v : covered c (spec_remove_cols_idx c M v) ->
  osim2 (arr2_remove_cols_idx zero c v a) (spec_remove_cols_idx c M v).
Proof.
  intros Hcov. pose proof (amax_long c Hc). pose proof (zlen_nonneg M) as Hnn. pose proof (ncols_nonneg M) as Hnc.
  unfold spec_remove_cols_idx, guard in *. destruct v as [|x v].
  - cbn [increasing forallb andb]. exists a.
    assert (map (fun r => keep r []) M = M) as ->.
    { clear. induction M as [|r L IH]; cbn; [reflexivity|]. now rewrite keep_nil, IH. }
    assert (norm M = M) as ->; [|auto]. unfold norm. destruct (Z.eqb_spec (ncols M) 0) as [E|]; [|reflexivity].
    apply wfm_zero in E; [|assumption]. apply zlen_zero in E. now rewrite E.
  - set (w := x :: v) in *. unfold arr2_remove_cols_idx. fold w. change (match w with [] => Ok a | _ => ?X end) with X.
    rewrite Hcols. destruct (increasing w && forallb (in_range (ncols M)) w) eqn:G.
    + apply andb_true_iff in G as [G1 G2]. apply increasing_spec in G1. apply in_range_forall in G2.
      unfold w at 1. rewrite complement_index_vector_ok by (auto; lia). fold w. cbn [bind].
      fold (rest (ncols M) w). set (u := rest (ncols M) w).
      pose proof (rest_range (ncols M) w Hnc) as HU. pose proof (rest_len (ncols M) w Hnc) as LU. fold u in HU, LU.
      pose proof (zlen_nonneg u) as Hu. rewrite Hrows.
      assert (0 < ncols M) as Hn. { inversion G2. lia. }
      assert (0 < zlen M) as Hm. { apply wfm_zero in Hw. lia. }
      assert (forall r : list V, zlen r = ncols M -> zlen (keep r w) = zlen u) as LK.
      { intros r Lr. rewrite zlen_keep, Lr. reflexivity. }
      assert (rect (zlen u) (map (fun r => keep r w) M)) as HRm by now apply (rect_map (ncols M)).
      assert (ncols (map (fun r => keep r w) M) = zlen u) as En.
      { apply rect_ncols; auto. apply nonempty_len. rewrite zlen_map. lia. }
      unfold norm. rewrite En.
      destruct (Z.eqb_spec (zlen u) 0) as [E0|E0].
      * rewrite E0. rewrite arr2_new_ok by (auto; lia). cbn [bind drows dcols dat buf an]. rewrite for_empty by lia. cbn [bind].
        eexists. split; [reflexivity|]. split; [split; [apply wfm_nil|repeat split]|]. unfold Array2DSim.small. cbn. lia.
      * assert (shape_ok (zlen M) (zlen u) = true) as Hs by (apply shape_ok_true; lia).
        unfold Array2DSim.small in HM. assert (zlen M * zlen u <= zlen M * ncols M) by nia.
        rewrite arr2_new_ok by (auto; lia). cbn [bind drows dcols dat buf an].
        set (b0 := repeat zero _). assert (zlen b0 = zlen M * zlen u) as L0 by (apply zlen_repeat; nia).
        assert (forall j, 0 <= j < zlen u -> 0 <= nthd 0 u j < ncols M) as HN.
        { intros j Hj. unfold nthd. destruct (znth_some u j Hj) as [p Hp]. rewrite Hp. rewrite Forall_forall in HU. apply HU. now apply znth_in in Hp. }
        destruct (rect_fill (zlen M) (zlen u) (zlen M) (zlen u) 0 0 (fun i j => mval zero M i (nthd 0 u j))
          (fun i j b => p <- oget u j ;; v <- un2 a i p ;; set2 (zlen u) b i j v) b0) as (b & E & L & GG); auto; try lia.
        { intros i j s Hi Hj. rewrite (oget_nthd 0) by lia. cbn [bind]. pose proof (HN j Hj).
          rewrite HPU by lia. cbn [bind]. now rewrite !Z.add_0_r. }
        rewrite E. cbn [bind]. eexists. split; [reflexivity|].
        match goal with |- rep2 ?x ?y /\ _ => assert (rep2 x y) as HR end;
          [|split; [exact HR|unfold Array2DSim.small; rewrite (size_of _ _ _ _ _ HR); lia]].
        apply rep2_intro; auto.
        -- apply zlen_map.
        -- intros i j Hi Hj. rewrite GG by assumption.
           replace ((0 <=? i) && (i <? 0 + zlen M) && (0 <=? j) && (j <? 0 + zlen u)) with true by lia.
           rewrite !Z.sub_0_r. rewrite mget_map. rewrite (mval_some zero (ncols M)) by auto. unfold mget.
           destruct (znth_some M i Hi) as [r Er]. rewrite Er. rewrite znth_keep. rewrite (rect_nth _ _ _ _ Hrect Er). fold u. unfold nthd.
           destruct (znth_some u j Hj) as [p Hp]. now rewrite Hp.
    + unfold Array2DSim.osim2. rewrite complement_index_vector_bad; [reflexivity| |].
      * eapply covered_checked; eauto.
      * intros [H1 H2]. apply increasing_spec in H1. apply in_range_forall in H2. unfold w in *. rewrite H1, H2 in G. discriminate.
Qed.

Lemma sim2_insert_rows fresh p A N : produces2 A N ->
  (M = [] -> osim2 fresh (room2 c (zlen N) (ncols N) (Ok N))) -> covered c (spec_insert_rows c M p N) ->
  osim2 (arr2_insert_rows_gen zero c fresh p A a) (spec_insert_rows c M p N).
Proof.
  intros HA Hf Hcov. pose proof (amax_long c Hc). unfold spec_insert_rows, guard in *. pose proof HA as (_ & HAr & HAc & _).
  pose proof Hshape as (Z1 & Z2 & Z3)%shape_ok_true. pose proof (zlen_nonneg N) as Z4.
  assert (arr2_insert_rows_gen zero c fresh p A a = (check_debug c (Ok ((0 <=? p) && (p <=? zlen M))) ;;;
    if zlen M =? 0 then fresh else arr2_insert_rows_gen zero c fresh p A a)) as E1.
  { unfold arr2_insert_rows_gen at 1. rewrite Hrows, Hcols.
    destruct (check_debug c (Ok ((0 <=? p) && (p <=? zlen M)))) as [u| |] eqn:E; [|reflexivity|reflexivity]. cbn [bind].
    destruct (Z.eqb_spec (zlen M) 0) as [EM|EM].
    - now replace (ncols M =? 0) with true by lia.
    - unfold arr2_insert_rows_gen. rewrite Hrows, Hcols. rewrite E. cbn [bind].
      now replace ((zlen M =? 0) && (ncols M =? 0)) with false by lia. }
  destruct ((0 <=? p) && (p <=? zlen M)) eqn:G.
  - rewrite E1. rewrite check_debug_true. cbn [bind]. destruct (Z.eqb_spec (zlen M) 0) as [EM|EM].
    + apply Hf. now apply zlen_zero.
    + assert (M <> []) as HMne by (apply nonempty_len; lia).
      destruct (Z.eqb_spec (ncols N) (ncols M)) as [EN|EN].
      * assert (shape_ok (zlen M + zlen N) (ncols M) = true) as Hs by (apply shape_ok_true; lia).
        assert (0 <= (zlen M + zlen N) * ncols M) by nia.
        unfold room2, room, in_long. destruct (Z.leb_spec ((zlen M + zlen N) * ncols M) LONG_MAX).
        -- replace ((LONG_MIN <=? (zlen M + zlen N) * ncols M) && true) with true by (unfold LONG_MIN; lia).
           destruct (Z.ltb_spec (amax c) ((zlen M + zlen N) * ncols M)).
           ++ unfold Array2DSim.osim2, arr2_insert_rows_gen. rewrite Hrows, Hcols, G, HAr, HAc. rewrite check_debug_true. cbn [bind].
              replace ((zlen M =? 0) && (ncols M =? 0)) with false by lia. replace (ncols N =? ncols M) with true by lia.
              rewrite check_debug_true. cbn [bind]. destruct (dims_long (zlen M + zlen N) (ncols M)); try lia.
              rewrite ladd_ok by (unfold LONG_MIN; lia). cbn [bind]. now rewrite arr2_new_big by (auto; lia).
           ++ destruct (insert_rows_ok zero c Hc a M Hr HM fresh p A N) as (a' & E & Hr'); auto; try lia.
              exists a'. split; [assumption|]. split; [assumption|]. unfold Array2DSim.small. rewrite zlen_ins by lia.
              assert (ncols (ins M p N) = ncols M) as ->; [|lia].
              apply rect_ncols; [apply rect_ins; auto; rewrite <- EN; apply wfm_rect, HA|].
              apply nonempty_len. rewrite zlen_ins; lia.
        -- replace ((LONG_MIN <=? (zlen M + zlen N) * ncols M) && false) with false by lia.
           unfold Array2DSim.osim2, arr2_insert_rows_gen. rewrite Hrows, Hcols, G, HAr, HAc. rewrite check_debug_true. cbn [bind].
           replace ((zlen M =? 0) && (ncols M =? 0)) with false by lia. replace (ncols N =? ncols M) with true by lia.
           rewrite check_debug_true. cbn [bind]. unfold ladd at 1, lret. destruct (in_long (zlen M + zlen N)); [|reflexivity].
           cbn [bind]. unfold arr2_new, lmul. rewrite lret_ub by lia. reflexivity.
      * unfold Array2DSim.osim2, arr2_insert_rows_gen. rewrite Hrows, Hcols, G, HAr, HAc. rewrite check_debug_true. cbn [bind].
        replace ((zlen M =? 0) && (ncols M =? 0)) with false by lia. replace (ncols N =? ncols M) with false by lia.
        rewrite check_debug_false; [reflexivity|]. replace (zlen M =? 0) with false in Hcov by lia. eapply covered_checked; eauto.
  - rewrite E1. unfold Array2DSim.osim2. rewrite check_debug_false; [reflexivity|]. eapply covered_checked; eauto.
Qed.

Lemma sim2_insert_cols fresh p A N : produces2 A N ->
  (M = [] -> osim2 fresh (room2 c (zlen N) (ncols N) (Ok N))) -> covered c (spec_insert_cols c M p N) ->
  osim2 (arr2_insert_cols_gen zero c fresh p A a) (spec_insert_cols c M p N).
Proof.
  intros HA Hf Hcov. pose proof (amax_long c Hc). unfold spec_insert_cols, guard in *. pose proof HA as (_ & HAr & HAc & _).
  pose proof Hshape as (Z1 & Z2 & Z3)%shape_ok_true. pose proof (ncols_nonneg N) as Z4.
  assert (arr2_insert_cols_gen zero c fresh p A a = (check_debug c (Ok ((0 <=? p) && (p <=? ncols M))) ;;;
    if zlen M =? 0 then fresh else arr2_insert_cols_gen zero c fresh p A a)) as E1.
  { unfold arr2_insert_cols_gen at 1. rewrite Hrows, Hcols.
    destruct (check_debug c (Ok ((0 <=? p) && (p <=? ncols M)))) as [u| |] eqn:E; [|reflexivity|reflexivity]. cbn [bind].
    destruct (Z.eqb_spec (zlen M) 0) as [EM|EM].
    - now replace (ncols M =? 0) with true by lia.
    - unfold arr2_insert_cols_gen. rewrite Hrows, Hcols. rewrite E. cbn [bind].
      now replace ((zlen M =? 0) && (ncols M =? 0)) with false by lia. }
  destruct ((0 <=? p) && (p <=? ncols M)) eqn:G.
  - rewrite E1. rewrite check_debug_true. cbn [bind]. destruct (Z.eqb_spec (zlen M) 0) as [EM|EM].
    + apply Hf. now apply zlen_zero.
    + assert (M <> []) as HMne by (apply nonempty_len; lia).
      destruct (Z.eqb_spec (zlen N) (zlen M)) as [EN|EN].
      * assert (shape_ok (zlen M) (ncols M + ncols N) = true) as Hs by (apply shape_ok_true; lia).
        assert (0 <= zlen M * (ncols M + ncols N)) by nia.
        unfold room2, room, in_long. destruct (Z.leb_spec (zlen M * (ncols M + ncols N)) LONG_MAX).
        -- replace ((LONG_MIN <=? zlen M * (ncols M + ncols N)) && true) with true by (unfold LONG_MIN; lia).
           destruct (Z.ltb_spec (amax c) (zlen M * (ncols M + ncols N))).
           ++ unfold Array2DSim.osim2, arr2_insert_cols_gen. rewrite Hrows, Hcols, G, HAr, HAc. rewrite check_debug_true. cbn [bind].
              replace ((zlen M =? 0) && (ncols M =? 0)) with false by lia. replace (zlen N =? zlen M) with true by lia.
              rewrite check_debug_true. cbn [bind]. destruct (dims_long (zlen M) (ncols M + ncols N)); try lia.
              rewrite ladd_ok by (unfold LONG_MIN; lia). cbn [bind]. now rewrite arr2_new_big by (auto; lia).
           ++ destruct (insert_cols_ok zero c Hc a M Hr HM fresh p A N) as (a' & E & Hr'); auto; try lia.
              exists a'. split; [assumption|]. split; [assumption|]. unfold Array2DSim.small.
              assert (zlen (zipw (fun r s => ins r p s) M N) = zlen M) as LZ. { unfold zipw. rewrite zlen_map. apply zlen_combine. lia. }
              rewrite LZ.
              assert (ncols (zipw (fun r s => ins r p s) M N) = ncols M + ncols N) as ->; [|lia].
              apply rect_ncols; [|apply nonempty_len; lia].
              apply rect_zipw; [assumption|]. intros i r s Er Es. pose proof (rect_nth _ _ _ _ Hrect Er).
              pose proof (rect_nth _ _ _ _ (wfm_rect _ (proj1 HA)) Es). rewrite zlen_ins; lia.
        -- replace ((LONG_MIN <=? zlen M * (ncols M + ncols N)) && false) with false by lia.
           unfold Array2DSim.osim2, arr2_insert_cols_gen. rewrite Hrows, Hcols, G, HAr, HAc. rewrite check_debug_true. cbn [bind].
           replace ((zlen M =? 0) && (ncols M =? 0)) with false by lia. replace (zlen N =? zlen M) with true by lia.
           rewrite check_debug_true. cbn [bind]. unfold ladd at 1, lret. destruct (in_long (ncols M + ncols N)); [|reflexivity].
           cbn [bind]. unfold arr2_new, lmul. rewrite lret_ub by lia. reflexivity.
      * unfold Array2DSim.osim2, arr2_insert_cols_gen. rewrite Hrows, Hcols, G, HAr, HAc. rewrite check_debug_true. cbn [bind].
        replace ((zlen M =? 0) && (ncols M =? 0)) with false by lia. replace (zlen N =? zlen M) with false by lia.
        rewrite check_debug_false; [reflexivity|]. replace (zlen M =? 0) with false in Hcov by lia. eapply covered_checked; eauto.
  - rewrite E1. unfold Array2DSim.osim2. rewrite check_debug_false; [reflexivity|]. eapply covered_checked; eauto.
Qed.
End Ops.
End P.
