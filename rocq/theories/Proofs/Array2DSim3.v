(** Continuation of Array2DSim2.v: single row and column insertion, element access, assignment. *)
From Coq Require Import Sorting.Sorted.
From Verif Require Import Base.Outcome Base.ZList Model.IntModel Model.ScalarOps Model.Index Model.Slice Model.Array1D Model.Array2D Model.Store1D.
From Verif Require Import Spec.ArraySpec Spec.SliceSpec Spec.Store1DSpec Spec.MatrixSpec Spec.Matrix2Spec.
From Verif Require Import Proofs.ScalarProofs Proofs.Array1DProofs Proofs.SliceProofs Proofs.ViewProofs Proofs.Store1DProofs Proofs.MatrixProofs Proofs.Array2DProofs Proofs.Array2DSim Proofs.Array2DSim2.
Ltac Zify.zify_post_hook ::= Z.div_mod_to_equations.

Section P.
Context {V : Type} (zero : V) (c : cfg).
Hypothesis Hc : cfg_ok c.
Implicit Types (a : arr2 V) (M N : list (list V)) (A : src2 V) (b : list V).
Notation osim2 := (osim2 c).
Notation small := (small c).

Section Ops.
Variables (a : arr2 V) (M : list (list V)).
Hypothesis Hr : rep2 a M.
Hypothesis HM : small M.
Let Hw : wfm M. Proof. apply Hr. Qed.
Let Hrect : rect (ncols M) M. Proof. apply wfm_rect, Hr. Qed.
Let Hshape := rep2_shape a M Hr.
Let Hrows : drows a = zlen M. Proof. apply Hr. Qed.
Let Hcols : dcols a = ncols M. Proof. apply Hr. Qed.
Let HPU := un2_ok zero c Hc a M Hr HM.

(** Into an empty array. *)
Lemma fresh_row m n B l : produces B l -> M = [] -> 0 < zlen l -> m * n = zlen l -> shape_ok m n = true ->
  forall R, rect n R -> zlen R = m -> concat R = l ->
  osim2 (t <- arr2_resize zero c m n true a ;; b <- copyn B (buf (dat t)) (zlen l) ;;
         Ok (mkarr2 (drows t) (dcols t) (mkarr b (an (dat t))))) (room2 c m n (Ok R)).
Proof.
  intros HB EM Hl Hmn Hs R HR HLR HCR. pose proof (amax_long c Hc). pose proof Hs as (H1 & H2 & H3)%shape_ok_true.
  unfold arr2_resize. replace (0 <=? m) with true by lia. replace (0 <=? n) with true by lia. rewrite semi_valid_true by assumption.
  rewrite !check_debug_true. cbn [bind]. rewrite Hrows, Hcols, EM. change (zlen (@nil (list V))) with 0. change (ncols (@nil (list V))) with 0.
  assert (m <> 0) by nia. replace (m =? 0) with false by lia. cbn [andb].
  assert (forall k : arr2 V -> outcome (arr2 V), (t <- (tmp <- arr2_new zero c m n ;; b <- for_ 0 (mins 0 m) (fun i b =>
                for_ 0 (mins 0 n) (fun j b => v <- un2 a i j ;; set2 n b i j v) b) (buf (dat tmp)) ;;
         Ok (mkarr2 m n (mkarr b (an (dat tmp))))) ;; k t) =
       (tmp <- arr2_new zero c m n ;; k (mkarr2 m n (mkarr (buf (dat tmp)) (an (dat tmp)))))) as EB.
  { intros k. destruct (arr2_new zero c m n) as [t| |]; [|reflexivity|reflexivity]. cbn [bind].
    rewrite for_empty by (unfold mins; destruct (0 <? m) eqn:?; lia). reflexivity. }
  rewrite (EB (fun t => b <- copyn B (buf (dat t)) (zlen l) ;; Ok (mkarr2 (drows t) (dcols t) (mkarr b (an (dat t)))))).
  apply room2_sim; auto. intros HS. rewrite arr2_new_ok by auto. cbn [bind drows dcols dat buf an].
  rewrite (copyn_ok zero _ l) by (auto; rewrite ?zlen_repeat by lia; lia). cbn [bind]. eexists. split; [reflexivity|].
  rewrite firstn_all2 by (unfold zlen; lia). rewrite skipn_all2 by (rewrite repeat_length, Hmn; lia). rewrite app_nil_r.
  match goal with |- rep2 ?x ?y /\ _ => assert (rep2 x y) as HH end; [|split; [exact HH|exact (size_of _ _ _ _ _ HH)]].
  apply rep2_intro; auto. intros i j Hi Hj. rewrite <- HCR. unfold get2. apply concat_get; auto. lia.
Qed.

Lemma ins_one_row p l i : 0 <= p <= zlen M -> 0 <= i < zlen M + 1 ->
  znth (ins M p [l]) i = if i =? p then Some l else znth M (if i <=? p then i else i - 1).
Proof.
  intros Hp Hi. rewrite znth_ins by lia. change (zlen [l]) with 1.
  destruct (Z.ltb_spec i p); destruct (Z.eqb_spec i p); destruct (Z.leb_spec i p); try lia; try reflexivity.
  - replace (i <? p + 1) with true by lia. replace (i - p) with 0 by lia. reflexivity.
  - now replace (i <? p + 1) with false by lia.
Qed.

Lemma insert_row_ok B l p : produces B l -> M <> [] -> zlen l = ncols M -> 0 <= p <= zlen M -> (zlen M + 1) * ncols M <= amax c ->
  exists a', arr2_insert_row zero c p B a = Ok a' /\ rep2 a' (ins M p [l]).
Proof.
  intros HB HMne EL Hp HS. pose proof (amax_long c Hc). pose proof Hshape as (Z1 & Z2 & Z3)%shape_ok_true.
  apply nonempty_len in HMne.
  assert (shape_ok (zlen M + 1) (ncols M) = true) as Hs by (apply shape_ok_true; lia).
  destruct (dims_long (zlen M + 1) (ncols M)) as [L1 L2]; try lia.
  unfold arr2_insert_row. rewrite Hrows, Hcols, (proj1 HB), EL.
  replace ((0 <=? p) && (p <=? zlen M)) with true by lia. replace ((zlen M =? 0) && (ncols M =? 0) && negb (ncols M =? 0)) with false by lia.
  rewrite Z.eqb_refl. rewrite !check_debug_true. cbn [bind]. rewrite ladd_ok by (unfold LONG_MIN; lia). cbn [bind].
  rewrite arr2_new_ok by auto. cbn [bind drows dcols dat buf an].
  set (m := zlen M + 1) in *. set (n := ncols M) in *. set (b0 := repeat zero _).
  assert (zlen b0 = m * n) as L0 by (apply zlen_repeat; unfold m; nia).
  set (R := ins M p [l]).
  destruct (for_inv (fun i s => zlen (fst s) = m * n /\ snd s = (if i <=? p then i else i - 1) /\
      forall i' j, 0 <= i' < i -> 0 <= j < n -> get2 n (fst s) i' j = mget R i' j) 0 m
    (fun i s => if i =? p
           then b <- for_ 0 n (fun j b => v <- sun B j ;; set2 n b i j v) (fst s) ;; Ok (b, snd s)
           else b <- for_ 0 n (fun j b => v <- un2 a (snd s) j ;; set2 n b i j v) (fst s) ;;
                k <- ladd (snd s) 1 ;; Ok (b, k)) (b0, 0)) as (s' & E & Ls & Ks & Gs).
  - lia.
  - cbn [fst snd]. split; [assumption|]. split; [destruct (0 <=? p) eqn:?; lia|]. intros. lia.
  - intros i s Hi (Ls & Ks & Gs). 
    assert (znth R i = if i =? p then Some l else znth M (if i <=? p then i else i - 1)) as ER by (apply ins_one_row; unfold m in *; lia).
    destruct (Z.eqb_spec i p) as [->|Hne].
    + destruct (row_fill m n n p 0 (nthd zero l) (fun j b => v <- sun B j ;; set2 n b p j v) (fst s)) as (b' & E & L' & G'); auto; try lia.
      { intros j b Hj. rewrite (proj2 HB) by lia. rewrite (oget_nthd zero) by lia. cbn [bind]. now rewrite Z.add_0_r. }
      rewrite E. cbn [bind]. eexists. split; [reflexivity|]. cbn [fst snd]. split; [assumption|].
      split; [rewrite Ks; destruct (Z.leb_spec p p), (Z.leb_spec (p + 1) p); lia|].
      intros i' j Hi' Hj. rewrite G' by lia. destruct (Z.eqb_spec i' p) as [->|].
      * replace (true && (0 <=? j) && (j <? 0 + n)) with true by lia. unfold mget. rewrite ER. unfold nthd. rewrite Z.sub_0_r.
        destruct (znth_some l j) as [y Hy]; [lia|]. now rewrite Hy.
      * cbn [andb]. apply Gs; lia.
    + set (k := snd s) in *. assert (0 <= k < zlen M) as Hk by (rewrite Ks; unfold m in *; destruct (Z.leb_spec i p); lia).
      destruct (row_fill m n n i 0 (mval zero M k) (fun j b => v <- un2 a k j ;; set2 n b i j v) (fst s)) as (b' & E & L' & G'); auto; try lia.
      { intros j b Hj. rewrite HPU by lia. cbn [bind]. now rewrite Z.add_0_r. }
      rewrite E. cbn [bind]. rewrite ladd_ok by (unfold LONG_MIN, m in *; lia). cbn [bind].
      eexists. split; [reflexivity|]. cbn [fst snd]. split; [assumption|].
      split; [rewrite Ks; destruct (Z.leb_spec i p), (Z.leb_spec (i + 1) p); lia|].
      intros i' j Hi' Hj. rewrite G' by lia. destruct (Z.eqb_spec i' i) as [->|].
      * replace (true && (0 <=? j) && (j <? 0 + n)) with true by lia. rewrite Z.sub_0_r.
        rewrite (mval_some zero n) by auto. unfold mget. rewrite ER. now rewrite <- Ks.
      * cbn [andb]. apply Gs; lia.
  - rewrite E. cbn [bind]. eexists. split; [reflexivity|]. apply rep2_intro; auto.
    + apply rect_ins; auto. constructor; [assumption|constructor].
    + apply zlen_ins. lia.
Qed.

Lemma ins_one {X} (r : list X) p x j : 0 <= p <= zlen r -> 0 <= j < zlen r + 1 ->
  znth (ins r p [x]) j = if j =? p then Some x else znth r (if j <=? p then j else j - 1).
Proof.
  intros Hp Hi. rewrite znth_ins by lia. change (zlen [x]) with 1.
  destruct (Z.ltb_spec j p); destruct (Z.eqb_spec j p); destruct (Z.leb_spec j p); try lia; try reflexivity.
  - replace (j <? p + 1) with true by lia. replace (j - p) with 0 by lia. reflexivity.
  - now replace (j <? p + 1) with false by lia.
Qed.

Lemma insert_col_ok B l p : produces B l -> M <> [] -> zlen l = zlen M -> 0 <= p <= ncols M -> zlen M * (ncols M + 1) <= amax c ->
  exists a', arr2_insert_col zero c p B a = Ok a' /\ rep2 a' (zipw (fun r x => ins r p [x]) M l).
Proof.
  intros HB HMne EL Hp HS. pose proof (amax_long c Hc). pose proof Hshape as (Z1 & Z2 & Z3)%shape_ok_true.
  apply nonempty_len in HMne.
  assert (shape_ok (zlen M) (ncols M + 1) = true) as Hs by (apply shape_ok_true; lia).
  destruct (dims_long (zlen M) (ncols M + 1)) as [L1 L2]; try lia.
  unfold arr2_insert_col. rewrite Hrows, Hcols, (proj1 HB), EL.
  replace ((0 <=? p) && (p <=? ncols M)) with true by lia. replace ((zlen M =? 0) && (ncols M =? 0) && negb (zlen M =? 0)) with false by lia.
  rewrite Z.eqb_refl. rewrite !check_debug_true. cbn [bind]. rewrite ladd_ok by (unfold LONG_MIN; lia). cbn [bind].
  rewrite arr2_new_ok by auto. cbn [bind drows dcols dat buf an].
  set (m := zlen M) in *. set (n := ncols M + 1) in *. set (b0 := repeat zero _).
  assert (zlen b0 = m * n) as L0 by (apply zlen_repeat; unfold n; nia).
  set (R := zipw (fun r x => ins r p [x]) M l).
  destruct (for_inv (fun i b => zlen b = m * n /\ forall i' j, 0 <= i' < i -> 0 <= j < n -> get2 n b i' j = mget R i' j) 0 m
    (fun i b => s <- for_ 0 n (fun j s =>
                  if j =? p
                  then v <- sun B i ;; b <- set2 n (fst s) i j v ;; Ok (b, snd s)
                  else v <- un2 a i (snd s) ;; b <- set2 n (fst s) i j v ;; k <- ladd (snd s) 1 ;; Ok (b, k)) (b, 0) ;;
           Ok (fst s)) b0) as (b' & E & Lb & Gb).
  - lia.
  - split; [assumption|]. intros. lia.
  - intros i b Hi (Lb & Gb). destruct (znth_some M i Hi) as [r Er]. destruct (znth_some l i) as [x Ex]; [lia|].
    pose proof (rect_nth _ _ _ _ Hrect Er) as Lr.
    assert (znth R i = Some (ins r p [x])) as ER by (unfold R; now apply (znth_zipw M (fun r x => ins r p [x]))).
    destruct (for_inv (fun j s => zlen (fst s) = m * n /\ snd s = (if j <=? p then j else j - 1) /\
        forall i' j', 0 <= i' < m -> 0 <= j' < n -> get2 n (fst s) i' j' = if (i' =? i) && (j' <? j) then mget R i' j' else get2 n b i' j') 0 n
      (fun j s => if j =? p
                  then v <- sun B i ;; b <- set2 n (fst s) i j v ;; Ok (b, snd s)
                  else v <- un2 a i (snd s) ;; b <- set2 n (fst s) i j v ;; k <- ladd (snd s) 1 ;; Ok (b, k)) (b, 0))
      as (s & E & Ls & Ks & Gs).
    + lia.
    + cbn [fst snd]. split; [assumption|]. split; [destruct (0 <=? p) eqn:?; lia|]. intros i' j' Hi' Hj'.
      now replace ((i' =? i) && (j' <? 0)) with false by lia.
    + intros j s Hj (Ls & Ks & Gs). pose proof (ins_one r p x j ltac:(lia) ltac:(unfold n in *; lia)) as EI.
      destruct (Z.eqb_spec j p) as [->|Hne].
      * rewrite (proj2 HB) by lia. rewrite (oget_ok _ _ _ Ex). cbn [bind]. rewrite (set2_ok m) by (auto; lia). cbn [bind].
        eexists. split; [reflexivity|]. cbn [fst snd]. rewrite zlen_zupd. split; [assumption|].
        split; [rewrite Ks; destruct (Z.leb_spec p p), (Z.leb_spec (p + 1) p); lia|].
        intros i' j' Hi' Hj'. rewrite (get2_zupd m) by (auto; lia). rewrite Gs by assumption.
        destruct ((i' =? i) && (j' =? p)) eqn:B1.
        -- replace ((i' =? i) && (j' <? p + 1)) with true by lia. assert (i' = i) by lia. assert (j' = p) by lia. subst i' j'.
           unfold mget. now rewrite ER, EI.
        -- now replace ((i' =? i) && (j' <? p + 1)) with ((i' =? i) && (j' <? p)) by lia.
      * set (k := snd s) in *. assert (0 <= k < ncols M) as Hk by (rewrite Ks; unfold n in *; destruct (Z.leb_spec j p); lia).
        rewrite HPU by lia. cbn [bind]. rewrite (set2_ok m) by (auto; lia). cbn [bind].
        rewrite ladd_ok by (unfold LONG_MIN, n in *; lia). cbn [bind].
        eexists. split; [reflexivity|]. cbn [fst snd]. rewrite zlen_zupd. split; [assumption|].
        split; [rewrite Ks; destruct (Z.leb_spec j p), (Z.leb_spec (j + 1) p); lia|].
        intros i' j' Hi' Hj'. rewrite (get2_zupd m) by (auto; lia). rewrite Gs by assumption.
        destruct ((i' =? i) && (j' =? j)) eqn:B1.
        -- replace ((i' =? i) && (j' <? j + 1)) with true by lia. assert (i' = i) by lia. assert (j' = j) by lia. subst i' j'.
           rewrite (mval_some zero (ncols M)) by auto. unfold mget. rewrite ER, EI, Er. now rewrite <- Ks.
        -- now replace ((i' =? i) && (j' <? j + 1)) with ((i' =? i) && (j' <? j)) by lia.
    + rewrite E. cbn [bind]. eexists. split; [reflexivity|]. split; [assumption|]. intros i' j Hi' Hj. rewrite Gs by lia.
      destruct (Z.eqb_spec i' i); [now replace (true && (j <? n)) with true by lia|]. apply Gb; lia.
  - rewrite E. cbn [bind]. eexists. split; [reflexivity|].
    assert (zlen R = m) as LR. { unfold R, zipw. rewrite zlen_map. apply zlen_combine. lia. }
    apply rep2_intro; auto.
    apply rect_zipw; [assumption|]. intros i r x E1 E2. pose proof (rect_nth _ _ _ _ Hrect E1). rewrite zlen_ins by lia.
    change (zlen [x]) with 1. lia.
Qed.

Lemma sim2_insert_row p B l : produces B l -> covered c (spec_insert_row c M p l) ->
  osim2 (arr2_insert_row zero c p B a) (spec_insert_row c M p l).
Proof.
  intros HB Hcov. pose proof (amax_long c Hc). unfold spec_insert_row, guard in *. pose proof (zlen_nonneg l) as Hl.
  pose proof Hshape as (Z1 & Z2 & Z3)%shape_ok_true.
  destruct ((0 <=? p) && (p <=? zlen M)) eqn:G.
  - destruct (Z.eqb_spec (zlen M) 0) as [EM|EM].
    + assert (ncols M = 0) as En by lia. unfold arr2_insert_row. rewrite Hrows, Hcols, G, (proj1 HB), EM, En. rewrite check_debug_true. cbn [bind].
      change (0 =? 0) with true. cbn [andb]. destruct (Z.ltb_spec 0 (zlen l)).
      * replace (negb (zlen l =? 0)) with true by lia. apply zlen_zero in EM.
        apply (fresh_row 1 (zlen l) B l); auto; try lia.
        -- apply shape_ok_true. lia.
        -- constructor; [reflexivity|constructor].
        -- cbn. now rewrite app_nil_r.
      * assert (checked c = true) as Hck by (eapply covered_checked; eauto).
        replace (negb (zlen l =? 0)) with false by lia. replace (zlen l =? 0) with true by lia. rewrite check_debug_true. cbn [bind].
        unfold Array2DSim.osim2. rewrite ladd_ok by (unfold LONG_MIN, LONG_MAX; lia). cbn [bind].
        unfold arr2_new. rewrite lmul_ok by (unfold LONG_MIN, LONG_MAX; lia). cbn [bind]. rewrite arr_new_ok by lia. cbn [bind].
        change (0 <=? 0 + 1) with true. change (0 <=? 0) with true. rewrite !check_debug_true. cbn [bind].
        change (semi_valid (0 + 1) 0) with false. now rewrite check_debug_false.
    + assert (M <> []) as HMne by (apply nonempty_len; lia). destruct (Z.eqb_spec (zlen l) (ncols M)) as [EL|EL].
      * assert (shape_ok (zlen M + 1) (ncols M) = true) as Hs by (apply shape_ok_true; lia).
        assert (0 <= (zlen M + 1) * ncols M) by nia.
        assert (forall R, (nr <- ladd (zlen M) 1 ;; tmp <- arr2_new zero c nr (ncols M) ;; @Ok (arr2 V) tmp) = R ->
           match R with Ok _ => True | Fail f => arr2_insert_row zero c p B a = Fail f | UB => arr2_insert_row zero c p B a = UB end) as HX.
        { intros R HR. unfold arr2_insert_row. rewrite Hrows, Hcols, G, (proj1 HB), EL. rewrite check_debug_true. cbn [bind].
          replace ((zlen M =? 0) && (ncols M =? 0) && negb (ncols M =? 0)) with false by lia. rewrite Z.eqb_refl, check_debug_true. cbn [bind].
          destruct (ladd (zlen M) 1) as [nr| |]; subst R; cbn [bind]; auto. destruct (arr2_new zero c nr (ncols M)); cbn [bind]; auto. }
        unfold room2, room, in_long. destruct (Z.leb_spec ((zlen M + 1) * ncols M) LONG_MAX).
        -- replace ((LONG_MIN <=? (zlen M + 1) * ncols M) && true) with true by (unfold LONG_MIN; lia).
           destruct (Z.ltb_spec (amax c) ((zlen M + 1) * ncols M)).
           ++ unfold Array2DSim.osim2. destruct (dims_long (zlen M + 1) (ncols M)); try lia.
              apply (HX (Fail BadAlloc)). rewrite ladd_ok by (unfold LONG_MIN; lia). cbn [bind]. now rewrite arr2_new_big by (auto; lia).
           ++ destruct (insert_row_ok B l p) as (a' & E & Hr'); auto; try lia.
              exists a'. split; [assumption|]. split; [assumption|]. unfold Array2DSim.small. rewrite zlen_ins by lia.
              assert (ncols (ins M p [l]) = ncols M) as ->; [|change (zlen [l]) with 1; lia].
              apply rect_ncols; [apply rect_ins; auto; constructor; [assumption|constructor]|].
              apply nonempty_len. rewrite zlen_ins by lia. change (zlen [l]) with 1. lia.
        -- replace ((LONG_MIN <=? (zlen M + 1) * ncols M) && false) with false by lia.
           unfold Array2DSim.osim2. apply (HX UB). unfold ladd, lret. destruct (in_long (zlen M + 1)); [|reflexivity].
           cbn [bind]. unfold arr2_new, lmul. rewrite lret_ub by lia. reflexivity.
      * unfold Array2DSim.osim2, arr2_insert_row. rewrite Hrows, Hcols, G, (proj1 HB). rewrite check_debug_true. cbn [bind].
        replace ((zlen M =? 0) && (ncols M =? 0) && negb (zlen l =? 0)) with false by lia. replace (zlen l =? ncols M) with false by lia.
        rewrite check_debug_false; [reflexivity|]. eapply covered_checked; eauto.
  - unfold Array2DSim.osim2, arr2_insert_row. rewrite Hrows, G. rewrite check_debug_false; [reflexivity|]. eapply covered_checked; eauto.
Qed.

Lemma sim2_insert_col p B l : produces B l -> covered c (spec_insert_col c M p l) ->
  osim2 (arr2_insert_col zero c p B a) (spec_insert_col c M p l).
Proof.
  intros HB Hcov. pose proof (amax_long c Hc). unfold spec_insert_col, guard in *. pose proof (zlen_nonneg l) as Hl.
  pose proof Hshape as (Z1 & Z2 & Z3)%shape_ok_true.
  destruct ((0 <=? p) && (p <=? ncols M)) eqn:G.
  - destruct (Z.eqb_spec (zlen M) 0) as [EM|EM].
    + assert (ncols M = 0) as En by lia. unfold arr2_insert_col. rewrite Hrows, Hcols, G, (proj1 HB), EM, En. rewrite check_debug_true. cbn [bind].
      change (0 =? 0) with true. cbn [andb]. destruct (Z.ltb_spec 0 (zlen l)).
      * replace (negb (zlen l =? 0)) with true by lia. apply zlen_zero in EM.
        apply (fresh_row (zlen l) 1 B l); auto; try lia.
        -- apply shape_ok_true. lia.
        -- apply Forall_forall. intros r Hin. apply in_map_iff in Hin as (x & <- & _). reflexivity.
        -- apply zlen_map.
        -- clear. induction l as [|x l IH]; cbn; [reflexivity|]. now f_equal.
      * assert (checked c = true) as Hck by (eapply covered_checked; eauto).
        replace (negb (zlen l =? 0)) with false by lia. replace (zlen l =? 0) with true by lia. rewrite check_debug_true. cbn [bind].
        unfold Array2DSim.osim2. rewrite ladd_ok by (unfold LONG_MIN, LONG_MAX; lia). cbn [bind].
        unfold arr2_new. rewrite lmul_ok by (unfold LONG_MIN, LONG_MAX; lia). cbn [bind]. rewrite arr_new_ok by lia. cbn [bind].
        change (0 <=? 0 + 1) with true. change (0 <=? 0) with true. rewrite !check_debug_true. cbn [bind].
        change (semi_valid 0 (0 + 1)) with false. now rewrite check_debug_false.
    + assert (M <> []) as HMne by (apply nonempty_len; lia). destruct (Z.eqb_spec (zlen l) (zlen M)) as [EL|EL].
      * assert (shape_ok (zlen M) (ncols M + 1) = true) as Hs by (apply shape_ok_true; lia).
        assert (0 <= zlen M * (ncols M + 1)) by nia.
        assert (forall R, (nr <- ladd (ncols M) 1 ;; tmp <- arr2_new zero c (zlen M) nr ;; @Ok (arr2 V) tmp) = R ->
           match R with Ok _ => True | Fail f => arr2_insert_col zero c p B a = Fail f | UB => arr2_insert_col zero c p B a = UB end) as HX.
        { intros R HR. unfold arr2_insert_col. rewrite Hrows, Hcols, G, (proj1 HB), EL. rewrite check_debug_true. cbn [bind].
          replace ((zlen M =? 0) && (ncols M =? 0) && negb (zlen M =? 0)) with false by lia. rewrite Z.eqb_refl, check_debug_true. cbn [bind].
          destruct (ladd (ncols M) 1) as [nr| |]; subst R; cbn [bind]; auto. destruct (arr2_new zero c (zlen M) nr); cbn [bind]; auto. }
        unfold room2, room, in_long. destruct (Z.leb_spec (zlen M * (ncols M + 1)) LONG_MAX).
        -- replace ((LONG_MIN <=? zlen M * (ncols M + 1)) && true) with true by (unfold LONG_MIN; lia).
           destruct (Z.ltb_spec (amax c) (zlen M * (ncols M + 1))).
           ++ unfold Array2DSim.osim2. destruct (dims_long (zlen M) (ncols M + 1)); try lia.
              apply (HX (Fail BadAlloc)). rewrite ladd_ok by (unfold LONG_MIN; lia). cbn [bind]. now rewrite arr2_new_big by (auto; lia).
           ++ destruct (insert_col_ok B l p) as (a' & E & Hr'); auto; try lia.
              exists a'. split; [assumption|]. split; [assumption|]. unfold Array2DSim.small.
              assert (zlen (zipw (fun r x => ins r p [x]) M l) = zlen M) as LZ. { unfold zipw. rewrite zlen_map. apply zlen_combine. lia. }
              rewrite LZ.
              assert (ncols (zipw (fun r x => ins r p [x]) M l) = ncols M + 1) as ->; [|lia].
              apply rect_ncols; [|apply nonempty_len; lia].
              apply rect_zipw; [assumption|]. intros i r s Er Es. pose proof (rect_nth _ _ _ _ Hrect Er).
              rewrite zlen_ins by lia. change (zlen [s]) with 1. lia.
        -- replace ((LONG_MIN <=? zlen M * (ncols M + 1)) && false) with false by lia.
           unfold Array2DSim.osim2. apply (HX UB). unfold ladd, lret. destruct (in_long (ncols M + 1)); [|reflexivity].
           cbn [bind]. unfold arr2_new, lmul. rewrite lret_ub by lia. reflexivity.
      * unfold Array2DSim.osim2, arr2_insert_col. rewrite Hrows, Hcols, G, (proj1 HB). rewrite check_debug_true. cbn [bind].
        replace ((zlen M =? 0) && (ncols M =? 0) && negb (zlen l =? 0)) with false by lia. replace (zlen l =? zlen M) with false by lia.
        rewrite check_debug_false; [reflexivity|]. eapply covered_checked; eauto.
  - unfold Array2DSim.osim2, arr2_insert_col. rewrite Hcols, G. rewrite check_debug_false; [reflexivity|]. eapply covered_checked; eauto.
Qed.

(** Element access. *)
Definition idx_long (ix : idx) : Prop := match ix with Plain i => is_long i | FromLast k => is_long k end.
Lemma last_fits_spec n ix : idx_long ix -> last_fits n ix = true -> idx_fits n ix.
Proof. destruct ix as [i|k]; simpl; [auto|]. intros; split; [assumption|lia]. Qed.
Lemma idx_get_cases n ix : 0 <= n <= LONG_MAX -> idx_long ix ->
  idx_get n ix = if last_fits n ix then Ok (denotes n ix) else UB.
Proof.
  intros Hn Hx. destruct (last_fits n ix) eqn:E.
  - apply idx_get_ok; auto. now apply last_fits_spec.
  - destruct ix as [i|k]; [discriminate|]. simpl in E. apply idx_get_ub; auto. lia.
Qed.
Lemma valid_index2_spec m n i j : valid_index2 m n i j = in_range m i && in_range n j.
Proof. unfold valid_index2, valid_row, valid_col, in_range. lia. Qed.
Lemma dims_long2 : 0 <= zlen M <= LONG_MAX /\ 0 <= ncols M <= LONG_MAX.
Proof.
  pose proof (amax_long c Hc). pose proof Hshape as (Z1 & Z2 & Z3)%shape_ok_true. unfold Array2DSim.small in HM.
  destruct (dims_long _ _ Z1 Z2 Z3); lia.
Qed.

Lemma mset_rect i j x : 0 <= i < zlen M -> 0 <= j < ncols M -> rect (ncols M) (mset M i j x) /\ zlen (mset M i j x) = zlen M /\
  forall i' j', 0 <= i' -> 0 <= j' -> mget (mset M i j x) i' j' = if (i' =? i) && (j' =? j) then Some x else mget M i' j'.
Proof.
  intros Hi Hj. destruct (znth_some M i Hi) as [r Er]. pose proof (rect_nth _ _ _ _ Hrect Er) as Lr. unfold mset. rewrite Er.
  split; [|split].
  - apply Forall_forall. intros q Hq. apply in_znth in Hq as (k & Hk). assert (0 <= k < zlen (zupd M i (zupd r j x))) as Rk by now apply znth_lt in Hk.
    rewrite znth_zupd in Hk by assumption. destruct (k =? i); [injection Hk as <-; now rewrite zlen_zupd|now apply (rect_nth _ M k)].
  - apply zlen_zupd.
  - intros i' j' Hi' Hj'. unfold mget. rewrite znth_zupd by assumption. destruct (Z.eqb_spec i' i) as [->|]; cbn [andb]; [|reflexivity].
    rewrite znth_zupd by lia. now rewrite Er.
Qed.

Lemma sim2_write ix jx x : idx_long ix -> idx_long jx -> covered c (spec_at2 c M ix jx (fun i j => Ok (mset M i j x))) ->
  osim2 (arr2_write c ix jx x a) (spec_at2 c M ix jx (fun i j => Ok (mset M i j x))).
Proof.
  intros Hix Hjx Hcov. destruct dims_long2 as [D1 D2]. unfold spec_at2, guard, arr2_write in *. rewrite Hrows, Hcols.
  rewrite !idx_get_cases by assumption.
  destruct (last_fits (zlen M) ix); [|reflexivity]. cbn [bind andb negb] in *.
  destruct (last_fits (ncols M) jx); [|reflexivity]. cbn [bind andb negb] in *.
  set (i := denotes (zlen M) ix) in *. set (j := denotes (ncols M) jx) in *. rewrite valid_index2_spec.
  destruct (in_range (zlen M) i && in_range (ncols M) j) eqn:G.
  - unfold in_range in G. rewrite check_debug_true. cbn [bind]. pose proof (amax_long c Hc). unfold Array2DSim.small in HM.
    pose proof (rep2_len a M Hr) as LB. rewrite (set2_ok (zlen M)) by (auto; lia). cbn [bind].
    destruct (mset_rect i j x) as (R1 & R2 & R3); [lia|lia|].
    eexists. split; [reflexivity|].
    replace (an (dat a)) with (zlen M * ncols M) by (symmetry; now apply rep2_an).
    match goal with |- rep2 ?x ?y /\ _ => assert (rep2 x y) as HR end;
      [|split; [exact HR|unfold Array2DSim.small; rewrite (size_of _ _ _ _ _ HR); lia]].
    apply rep2_intro; auto.
    + now rewrite zlen_zupd.
    + intros i' j' Hi' Hj'. rewrite R3 by lia. rewrite (get2_zupd (zlen M)) by (auto; lia). now rewrite (rep2_get a M Hr) by assumption.
  - unfold Array2DSim.osim2. rewrite check_debug_false; [reflexivity|]. eapply covered_checked; eauto.
Qed.
Lemma sim2_read ix jx : idx_long ix -> idx_long jx ->
  covered c (spec_at2 c M ix jx (fun i j => match mget M i j with Some v => Ok v | None => UB end)) ->
  sub2 c (src_of_arr2 a) ix jx = spec_at2 c M ix jx (fun i j => match mget M i j with Some v => Ok v | None => UB end).
Proof.
  intros Hix Hjx Hcov. destruct dims_long2 as [D1 D2]. unfold spec_at2, guard, sub2 in *. cbn [src_of_arr2 s2rows s2cols s2un]. rewrite Hrows, Hcols.
  rewrite !idx_get_cases by assumption.
  destruct (last_fits (zlen M) ix); [|reflexivity]. cbn [bind andb negb] in *.
  destruct (last_fits (ncols M) jx); [|reflexivity]. cbn [bind andb negb] in *.
  set (i := denotes (zlen M) ix) in *. set (j := denotes (ncols M) jx) in *. rewrite valid_index2_spec.
  destruct (in_range (zlen M) i && in_range (ncols M) j) eqn:G.
  - unfold in_range in G. rewrite check_debug_true. cbn [bind]. rewrite HPU by lia.
    rewrite <- (mval_some zero (ncols M)) by (auto; lia). reflexivity.
  - rewrite check_debug_false; [reflexivity|]. eapply covered_checked; eauto.
Qed.
Lemma at2_ok ix jx : idx_long ix -> idx_long jx ->
  at2 c (src_of_arr2 a) ix jx =
    (if negb (last_fits (zlen M) ix && last_fits (ncols M) jx) then UB
     else check_always c (in_range (zlen M) (denotes (zlen M) ix) && in_range (ncols M) (denotes (ncols M) jx)) ;;;
          match mget M (denotes (zlen M) ix) (denotes (ncols M) jx) with Some v => Ok v | None => un2 a (denotes (zlen M) ix) (denotes (ncols M) jx) end).
Proof.
  intros Hix Hjx. destruct dims_long2 as [D1 D2]. unfold at2. cbn [src_of_arr2 s2rows s2cols s2un]. rewrite Hrows, Hcols.
  rewrite !idx_get_cases by assumption.
  destruct (last_fits (zlen M) ix); [|reflexivity]. cbn [bind andb negb] in *.
  destruct (last_fits (ncols M) jx); [|reflexivity]. cbn [bind andb negb] in *.
  set (i := denotes (zlen M) ix) in *. set (j := denotes (ncols M) jx) in *. rewrite valid_index2_spec.
  destruct (check_always c (in_range (zlen M) i && in_range (ncols M) j)); cbn [bind]; auto.
  destruct (mget M i j) as [v|] eqn:E; [|reflexivity]. destruct (mget_in _ _ _ _ _ Hrect E). rewrite HPU by assumption.
  unfold mval. now rewrite E.
Qed.

(** Assignments *)
Definition same_dims M N : bool := (zlen M =? zlen N) && (ncols M =? ncols N).
Lemma sim2_assign_arr s N : rep2 s N -> small N -> covered c (guard c (same_dims M N) (Ok N)) ->
  match guard c (same_dims M N) (Ok N) with
  | Ok R => exists a', arr2_assign_arr c s a = MOk a' /\ rep2 a' R /\ small R
  | Fail f => arr2_assign_arr c s a = MFail f a
  | UB => False
  end.
Proof.
  intros HN HS Hcov. unfold guard, arr2_assign_arr in *. pose proof HN as (Hwn & E1 & E2 & E3). rewrite Hrows, Hcols, E1, E2.
  change (same_size2 (zlen M) (ncols M) (zlen N) (ncols N)) with (same_dims M N).
  destruct (same_dims M N) eqn:G.
  - rewrite check_debug_true. unfold same_dims in G. assert (zlen M = zlen N) by lia. assert (ncols M = ncols N) by lia.
    assert (zlen (concat M) = zlen (concat N)) as EC. { rewrite (zlen_concat _ _ Hrect). rewrite (zlen_concat (ncols N)) by now apply wfm_rect. congruence. }
    pose proof (sim_assign c (dat a) (concat M) (src_of_arr (dat s)) (concat N)) as HA. unfold guard in HA.
    replace (zlen (concat M) =? zlen (concat N)) with true in HA by lia.
    destruct HA as (d & E & Hd & _).
    + apply Hr.
    + rewrite (zlen_concat _ _ Hrect). exact HM.
    + now apply produces_arr.
    + right. exact I.
    + unfold arr_assign_arr. rewrite E. cbn [mbind]. eexists. split; [reflexivity|]. split; [|assumption].
      split; [assumption|]. simpl. split; [congruence|]. split; [congruence|]. assumption.
  - rewrite check_debug_false; [reflexivity|]. eapply covered_checked; eauto.
Qed.
Lemma move_assign_same s N : rep2 s N -> same_dims M N = true ->
  exists a', arr2_move_assign c a s = Ok (a', arr2_empty) /\ rep2 a' N.
Proof.
  intros HN G. pose proof HN as (Hwn & E1 & E2 & E3). unfold arr2_move_assign. rewrite Hrows, Hcols, E1, E2.
  change (same_size2 (zlen M) (ncols M) (zlen N) (ncols N)) with (same_dims M N). rewrite G, check_normal_true. cbn [bind].
  unfold same_dims in G.
  assert (an (dat a) = an (dat s)) as EA. { rewrite (rep2_an a M Hr), (rep2_an s N HN). f_equal; lia. }
  unfold arr_move_assign. rewrite EA, Z.eqb_refl, check_normal_true. cbn.
  eexists. split; [reflexivity|]. split; [assumption|]. simpl. split; [lia|]. split; [lia|assumption].
Qed.
Lemma sim2_assign_list L : covered c (N <- spec_list2 c L ;; guard c (same_dims M N) (Ok N)) ->
  osim2 (arr2_assign_list zero c L a) (N <- spec_list2 c L ;; guard c (same_dims M N) (Ok N)).
Proof.
  intros Hcov. unfold arr2_assign_list. pose proof (sim2_list zero c Hc L) as HL.
  destruct (spec_list2 c L) as [N|f|]; cbn [bind] in *.
  - destruct HL as (t & -> & Ht & HS); [right; exact I|]. cbn [bind]. pose proof Ht as (_ & E1 & E2 & _). rewrite Hrows, Hcols, E1, E2.
    change (same_size2 (zlen M) (ncols M) (zlen N) (ncols N)) with (same_dims M N). unfold guard in *. destruct (same_dims M N) eqn:G.
    + rewrite check_debug_true. cbn [bind]. destruct (move_assign_same t N Ht G) as (a' & -> & Hr'). cbn [bind fst]. exists a'. auto.
    + unfold Array2DSim.osim2. rewrite check_debug_false; [reflexivity|]. eapply covered_checked; eauto.
  - unfold Array2DSim.osim2 in *. rewrite HL by (destruct Hcov; [now left|now right]). reflexivity.
  - unfold Array2DSim.osim2 in *. rewrite HL by (destruct Hcov; [now left|contradiction]). reflexivity.
Qed.
End Ops.
End P.
