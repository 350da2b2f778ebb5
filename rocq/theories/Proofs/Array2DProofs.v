(** The two-dimensional array functions compute the matrix operations of Matrix2Spec.v. *)
From Coq Require Import Sorting.Sorted.
From Verif Require Import Base.Outcome Base.ZList Model.IntModel Model.ScalarOps Model.Index Model.Slice Model.Array1D Model.Array2D Model.Store1D.
From Verif Require Import Spec.ArraySpec Spec.SliceSpec Spec.Store1DSpec Spec.MatrixSpec Spec.Matrix2Spec.
From Verif Require Import Proofs.ScalarProofs Proofs.Array1DProofs Proofs.SliceProofs Proofs.ViewProofs Proofs.Store1DProofs Proofs.MatrixProofs.
Ltac Zify.zify_post_hook ::= Z.div_mod_to_equations.

Ltac lon := repeat (first [rewrite ladd_ok by (unfold LONG_MIN; lia) | rewrite lsub_ok by (unfold LONG_MIN; lia)]; cbn [bind]).
Lemma zlen_combine {X Y} (l1 : list X) (l2 : list Y) : zlen l1 = zlen l2 -> zlen (combine l1 l2) = zlen l1.
Proof. unfold zlen. rewrite combine_length. lia. Qed.

Section P.
Context {V : Type} (zero : V) (c : cfg).
Hypothesis Hc : cfg_ok c.
Implicit Types (a : arr2 V) (M N : list (list V)) (A : src2 V) (b : list V).

Definition mval M (i j : Z) : V := match mget M i j with Some v => v | None => zero end.
Lemma mval_some n M i j : rect n M -> 0 <= i < zlen M -> 0 <= j < n -> Some (mval M i j) = mget M i j.
Proof. intros H Hi Hj. unfold mval. destruct (mget_some n M i j H Hi Hj) as [v ->]. reflexivity. Qed.

(** ** Building *)
Lemma semi_valid_true m n : (m = 0 <-> n = 0) -> semi_valid m n = true.
Proof. intros H. unfold semi_valid. destruct (Z.eqb_spec m 0), (Z.eqb_spec n 0); simpl; try reflexivity; lia. Qed.
Lemma shape_ok_spec m n : shape_ok m n = (0 <=? m) && (0 <=? n) && semi_valid m n.
Proof. unfold shape_ok, semi_valid. destruct (m =? 0), (n =? 0); reflexivity. Qed.
Lemma shape_ok_true m n : shape_ok m n = true <-> 0 <= m /\ 0 <= n /\ (m = 0 <-> n = 0).
Proof.
  unfold shape_ok. destruct (Z.eqb_spec m 0), (Z.eqb_spec n 0); simpl; rewrite ?andb_true_r, ?andb_false_r; lia.
Qed.
Lemma arr2_new_ok m n : shape_ok m n = true -> m * n <= amax c ->
  arr2_new zero c m n = Ok (mkarr2 m n (mkarr (repeat zero (Z.to_nat (m * n))) (m * n))).
Proof.
  intros Hs Hm. apply shape_ok_true in Hs as (H1 & H2 & H3). unfold cfg_ok in Hc. assert (0 <= m * n) by nia.
  unfold arr2_new. rewrite lmul_ok by (unfold LONG_MIN; lia). cbn [bind]. rewrite arr_new_ok by lia. cbn [bind].
  replace (0 <=? m) with true by lia. replace (0 <=? n) with true by lia. rewrite semi_valid_true by assumption.
  now rewrite !check_debug_true.
Qed.
Lemma fresh_get m n i j : 0 <= i < m -> 0 <= j < n -> get2 n (repeat zero (Z.to_nat (m * n))) i j = Some zero.
Proof. intros. unfold get2. apply znth_repeat. now apply addr_range. Qed.

Lemma rep2_intro m n b M : rect n M -> zlen M = m -> shape_ok m n = true -> zlen b = m * n ->
  (forall i j, 0 <= i < m -> 0 <= j < n -> get2 n b i j = mget M i j) -> rep2 (mkarr2 m n (mkarr b (m * n))) M.
Proof.
  intros HR HL Hs Hb H. apply shape_ok_true in Hs as (H1 & H2 & H3).
  assert (b = concat M) as -> by (eapply concat_ext; eauto; lia).
  assert (ncols M = n) as En.
  { destruct (Z.eq_dec m 0) as [E|E]; [|apply rect_ncols; [assumption|apply nonempty_len; lia]].
    assert (n = 0) as -> by now apply H3. rewrite <- HL in E. apply zlen_zero in E. now rewrite E. }
  split; [|split; [|split; [|split]]]; simpl; auto.
  split; [now rewrite En|]. intros Hne. apply nonempty_len in Hne. lia.
Qed.

(** ** Reading *)
Section Read.
Variables (a : arr2 V) (M : list (list V)).
Hypothesis Hr : rep2 a M.
Hypothesis HL : zlen M * ncols M <= amax c.

Lemma rep2_len : zlen (buf (dat a)) = zlen M * ncols M.
Proof. destruct Hr as ([HR _] & _ & _ & [-> _]). now apply zlen_concat. Qed.
Lemma rep2_an : an (dat a) = zlen M * ncols M.
Proof. destruct Hr as ([HR _] & _ & _ & [_ ->]). now apply zlen_concat. Qed.
Lemma rep2_shape : shape_ok (zlen M) (ncols M) = true.
Proof.
  apply shape_ok_true. destruct Hr as (Hw & _). split; [apply zlen_nonneg|]. split; [apply ncols_nonneg|]. now apply wfm_zero.
Qed.
Lemma rep2_get i j : 0 <= i < zlen M -> 0 <= j < ncols M -> get2 (ncols M) (buf (dat a)) i j = mget M i j.
Proof. intros Hi Hj. destruct Hr as ([HR _] & _ & _ & [-> _]). unfold get2. now apply concat_get. Qed.
Lemma un2_ok i j : 0 <= i < zlen M -> 0 <= j < ncols M -> un2 a i j = Ok (mval M i j).
Proof.
  intros Hi Hj. unfold cfg_ok in Hc. pose proof (addr_range _ _ _ _ Hi Hj). assert (0 <= i * ncols M) by nia.
  unfold un2. destruct Hr as (_ & _ & -> & _). rewrite lmul_ok by (unfold LONG_MIN; lia). cbn [bind].
  rewrite ladd_ok by (unfold LONG_MIN; lia). cbn [bind]. apply oget_ok.
  rewrite (mval_some (ncols M)) by (auto; now apply wfm_rect, Hr). now rewrite <- rep2_get.
Qed.
Lemma produces2_arr : produces2 (src_of_arr2 a) M.
Proof.
  pose proof Hr as (Hw & H1 & H2 & H3). split; [assumption|]. cbn [src_of_arr2 s2rows s2cols s2size s2un s2lin].
  split; [assumption|]. split; [assumption|]. split; [apply rep2_an|]. split.
  - intros i j Hi Hj. exists (mval M i j). split; [symmetry; apply (mval_some (ncols M)); auto; now apply wfm_rect|now apply un2_ok].
  - intros k Hk. now destruct H3 as [-> _].
Qed.
End Read.
Lemma produces2_un A M i j : produces2 A M -> 0 <= i < zlen M -> 0 <= j < ncols M -> s2un A i j = Ok (mval M i j).
Proof. intros (_ & _ & _ & _ & H & _) Hi Hj. destruct (H i j Hi Hj) as (v & E & ->). unfold mval. now rewrite E. Qed.

(** ** Copy loops *)
Section Copy.
Variables (A : src2 V) (M : list (list V)) (m n : Z) (b : list V).
Hypothesis HA : produces2 A M.
Hypothesis Hb : zlen b = m * n.
Hypothesis HL : m * n <= LONG_MAX.
Hypothesis HS : zlen M * ncols M <= LONG_MAX.

Lemma copy_rows3_ok s1 s2 k : 0 <= s1 -> 0 <= s2 -> 0 <= k -> s1 + k <= zlen M -> s2 + k <= m -> ncols M <= n ->
  zlen M <= LONG_MAX -> m <= LONG_MAX ->
  exists b', copy_rows3 A n s1 s2 k b = Ok b' /\ zlen b' = m * n /\
    forall i j, 0 <= i < m -> 0 <= j < n -> get2 n b' i j =
      if (s2 <=? i) && (i <? s2 + k) && (j <? ncols M) then mget M (i - s2 + s1) j else get2 n b i j.
Proof.
  intros H1 H2 H3 H4 H5 H6 L1 L2. pose proof (ncols_nonneg M).
  destruct (rect_fill m n k (ncols M) s2 0 (fun i j => mval M (i + s1) j)
    (fun i j b => i1 <- ladd i s1 ;; v <- s2un A i1 j ;; i2 <- ladd i s2 ;; set2 n b i2 j v) b) as (b' & E & L & G); auto; try lia.
  - intros i j s Hi Hj. rewrite ladd_ok by (unfold LONG_MIN; lia). cbn [bind].
    rewrite (produces2_un A M) by (auto; lia). cbn [bind]. rewrite ladd_ok by (unfold LONG_MIN; lia). cbn [bind].
    now rewrite Z.add_0_r.
  - exists b'. split; [|split; [assumption|]].
    + unfold copy_rows3. pose proof HA as (_ & _ & -> & _). exact E.
    + intros i j Hi Hj. rewrite G by assumption.
      replace ((s2 <=? i) && (i <? s2 + k) && (0 <=? j) && (j <? 0 + ncols M)) with ((s2 <=? i) && (i <? s2 + k) && (j <? ncols M)) by lia.
      destruct ((s2 <=? i) && (i <? s2 + k) && (j <? ncols M)) eqn:B; [|reflexivity].
      rewrite Z.sub_0_r. apply (mval_some (ncols M)); [apply wfm_rect, HA|lia|lia].
Qed.
Lemma copy_rows_ok k : 0 <= k -> k <= zlen M -> k <= m -> ncols M <= n ->
  exists b', copy_rows A n k b = Ok b' /\ zlen b' = m * n /\
    forall i j, 0 <= i < m -> 0 <= j < n -> get2 n b' i j =
      if (i <? k) && (j <? ncols M) then mget M i j else get2 n b i j.
Proof.
  intros H3 H4 H5 H6. pose proof (ncols_nonneg M).
  destruct (rect_fill m n k (ncols M) 0 0 (mval M)
    (fun i j b => v <- s2un A i j ;; set2 n b i j v) b) as (b' & E & L & G); auto; try lia.
  - intros i j s Hi Hj. rewrite (produces2_un A M) by (auto; lia). cbn [bind]. now rewrite !Z.add_0_r.
  - exists b'. split; [|split; [assumption|]].
    + unfold copy_rows. pose proof HA as (_ & _ & -> & _). exact E.
    + intros i j Hi Hj. rewrite G by assumption.
      replace ((0 <=? i) && (i <? 0 + k) && (0 <=? j) && (j <? 0 + ncols M)) with ((i <? k) && (j <? ncols M)) by lia.
      destruct ((i <? k) && (j <? ncols M)) eqn:B; [|reflexivity].
      rewrite !Z.sub_0_r. apply (mval_some (ncols M)); [apply wfm_rect, HA|lia|lia].
Qed.
Lemma copy_cols3_ok s1 s2 k : 0 <= s1 -> 0 <= s2 -> 0 <= k -> s1 + k <= ncols M -> s2 + k <= n -> zlen M <= m ->
  ncols M <= LONG_MAX -> n <= LONG_MAX ->
  exists b', copy_cols3 A n s1 s2 k b = Ok b' /\ zlen b' = m * n /\
    forall i j, 0 <= i < m -> 0 <= j < n -> get2 n b' i j =
      if (i <? zlen M) && (s2 <=? j) && (j <? s2 + k) then mget M i (j - s2 + s1) else get2 n b i j.
Proof.
  intros H1 H2 H3 H4 H5 H6 L1 L2. pose proof (zlen_nonneg M).
  destruct (rect_fill m n (zlen M) k 0 s2 (fun i j => mval M i (j + s1))
    (fun i j b => j1 <- ladd j s1 ;; v <- s2un A i j1 ;; j2 <- ladd j s2 ;; set2 n b i j2 v) b) as (b' & E & L & G); auto; try lia.
  - intros i j s Hi Hj. rewrite ladd_ok by (unfold LONG_MIN; lia). cbn [bind].
    rewrite (produces2_un A M) by (auto; lia). cbn [bind]. rewrite ladd_ok by (unfold LONG_MIN; lia). cbn [bind].
    now rewrite Z.add_0_r.
  - exists b'. split; [|split; [assumption|]].
    + unfold copy_cols3. pose proof HA as (_ & -> & _). exact E.
    + intros i j Hi Hj. rewrite G by assumption.
      replace ((0 <=? i) && (i <? 0 + zlen M) && (s2 <=? j) && (j <? s2 + k)) with ((i <? zlen M) && (s2 <=? j) && (j <? s2 + k)) by lia.
      destruct ((i <? zlen M) && (s2 <=? j) && (j <? s2 + k)) eqn:B; [|reflexivity].
      rewrite Z.sub_0_r. apply (mval_some (ncols M)); [apply wfm_rect, HA|lia|lia].
Qed.
Lemma copy_cols_ok k : 0 <= k -> k <= ncols M -> k <= n -> zlen M <= m ->
  exists b', copy_cols A n k b = Ok b' /\ zlen b' = m * n /\
    forall i j, 0 <= i < m -> 0 <= j < n -> get2 n b' i j =
      if (i <? zlen M) && (j <? k) then mget M i j else get2 n b i j.
Proof.
  intros H3 H4 H5 H6. pose proof (zlen_nonneg M).
  destruct (rect_fill m n (zlen M) k 0 0 (mval M)
    (fun i j b => v <- s2un A i j ;; set2 n b i j v) b) as (b' & E & L & G); auto; try lia.
  - intros i j s Hi Hj. rewrite (produces2_un A M) by (auto; lia). cbn [bind]. now rewrite !Z.add_0_r.
  - exists b'. split; [|split; [assumption|]].
    + unfold copy_cols. pose proof HA as (_ & -> & _). exact E.
    + intros i j Hi Hj. rewrite G by assumption.
      replace ((0 <=? i) && (i <? 0 + zlen M) && (0 <=? j) && (j <? 0 + k)) with ((i <? zlen M) && (j <? k)) by lia.
      destruct ((i <? zlen M) && (j <? k)) eqn:B; [|reflexivity].
      rewrite !Z.sub_0_r. apply (mval_some (ncols M)); [apply wfm_rect, HA|lia|lia].
Qed.
Lemma copy2_ok : m = zlen M -> n = ncols M -> copy2 A n b = Ok (concat M).
Proof.
  intros -> ->. pose proof (zlen_nonneg M). pose proof (ncols_nonneg M).
  destruct (rect_fill (zlen M) (ncols M) (zlen M) (ncols M) 0 0 (mval M)
    (fun i j b => v <- s2un A i j ;; set2 (ncols M) b i j v) b) as (b' & E & L & G); auto; try lia.
  - intros i j s Hi Hj. rewrite (produces2_un A M) by (auto; lia). cbn [bind]. now rewrite !Z.add_0_r.
  - unfold copy2. pose proof HA as (Hw & -> & -> & _). rewrite E. f_equal.
    apply (concat_ext (zlen M) (ncols M)); auto; [now apply wfm_rect|apply wfm_zero in Hw; lia|].
    intros i j Hi Hj. change (znth b' (i * ncols M + j)) with (get2 (ncols M) b' i j). rewrite G by assumption.
    replace ((0 <=? i) && (i <? 0 + zlen M) && (0 <=? j) && (j <? 0 + ncols M)) with true by lia.
    rewrite !Z.sub_0_r. apply (mval_some (ncols M)); auto. now apply wfm_rect.
Qed.
End Copy.

Lemma dims_long m n : 0 <= m -> 0 <= n -> (m = 0 <-> n = 0) -> m * n <= LONG_MAX -> m <= LONG_MAX /\ n <= LONG_MAX.
Proof. intros. unfold LONG_MAX in *. destruct (Z.eq_dec m 0); [lia|]. nia. Qed.

(** ** Operations *)
Section Ops.
Variables (a : arr2 V) (M : list (list V)).
Hypothesis Hr : rep2 a M.
Hypothesis HM : zlen M * ncols M <= amax c.

Let Hrect : rect (ncols M) M. Proof. apply wfm_rect, Hr. Qed.
Let Hshape := rep2_shape a M Hr.
Let HPA : produces2 (src_of_arr2 a) M := produces2_arr a M Hr HM.
Let Hrows : drows a = zlen M. Proof. apply Hr. Qed.
Let Hcols : dcols a = ncols M. Proof. apply Hr. Qed.

Lemma remove_rows_ok p k : 0 < k -> 0 <= p -> p + k <= zlen M ->
  exists a', arr2_remove_rows zero c p k a = Ok a' /\ rep2 a' (del M p k).
Proof.
  intros H1 H2 H3. unfold cfg_ok in Hc. pose proof Hshape as Hs. apply shape_ok_true in Hs as (Z1 & Z2 & Z3).
  destruct (dims_long _ _ Z1 Z2 Z3) as [LM LN]; [lia|].
  unfold arr2_remove_rows. rewrite Hrows, Hcols. unfold valid_row.
  replace (0 <? k) with true by lia. replace ((-1 <? p) && (p <? zlen M)) with true by lia.
  rewrite (ladd_ok p k) by (unfold LONG_MIN; lia). cbn [bind]. rewrite (lsub_ok (p + k) 1) by (unfold LONG_MIN; lia). cbn [bind].
  replace ((-1 <? p + k - 1) && (p + k - 1 <? zlen M)) with true by lia. rewrite !check_debug_true. cbn [bind].
  rewrite !lsub_ok by (unfold LONG_MIN; lia). cbn [bind]. 
  destruct (Z.eqb_spec (zlen M - k) 0) as [E0|E0].
  - rewrite arr2_new_ok by (try reflexivity; rewrite ?E0; try reflexivity; lia). rewrite E0. cbn [bind drows dcols dat buf an].
    replace p with 0 by lia. unfold copy_rows, copy_rows3. rewrite for_empty by lia. cbn [bind]. lon.
    rewrite for_empty by lia. cbn [bind]. eexists. split; [reflexivity|].
    assert (del M 0 k = []) as ->. { apply zlen_zero. rewrite zlen_del; lia. }
    split; [apply wfm_nil|]. repeat split.
  - assert (shape_ok (zlen M - k) (ncols M) = true) as Hs' by (apply shape_ok_true; lia).
    rewrite arr2_new_ok by (auto; nia). cbn [bind drows dcols dat buf an].
    set (b0 := repeat zero _).
    assert (zlen b0 = (zlen M - k) * ncols M) as L0 by (apply zlen_repeat; nia).
    assert ((zlen M - k) * ncols M <= zlen M * ncols M) by nia.
    destruct (copy_rows_ok (src_of_arr2 a) M (zlen M - k) (ncols M) b0 HPA L0) with (k := p) as (b1 & -> & L1 & G1); try lia.
    cbn [bind]. lon.
    destruct (copy_rows3_ok (src_of_arr2 a) M (zlen M - k) (ncols M) b1 HPA L1) with (s1 := p + k) (s2 := p) (k := zlen M - p - k)
      as (b2 & -> & L2 & G2); try lia. cbn [bind].
    eexists. split; [reflexivity|]. apply rep2_intro; auto.
    + now apply rect_del.
    + apply zlen_del; lia.
    + intros i j Hi Hj. rewrite G2, G1 by assumption. unfold mget. rewrite znth_del by lia.
      destruct ((p <=? i) && (i <? p + (zlen M - p - k)) && (j <? ncols M)) eqn:B.
      * replace (i <? p) with false by lia. now replace (i - p + (p + k)) with (i + k) by lia.
      * replace (i <? p) with true by lia. now replace (j <? ncols M) with true by lia.
Qed.

Lemma remove_cols_ok p k : 0 < k -> 0 <= p -> p + k <= ncols M ->
  exists a', arr2_remove_cols zero c p k a = Ok a' /\ rep2 a' (norm (map (fun r => del r p k) M)).
Proof.
  intros H1 H2 H3. unfold cfg_ok in Hc. pose proof Hshape as Hs. apply shape_ok_true in Hs as (Z1 & Z2 & Z3).
  destruct (dims_long _ _ Z1 Z2 Z3) as [LM LN]; [lia|].
  assert (rect (ncols M - k) (map (fun r => del r p k) M)) as HR'.
  { apply (rect_map (ncols M)); auto. intros r Hrr. rewrite zlen_del; lia. }
  assert (M <> []) as HMne by (apply nonempty_len; lia).
  assert (ncols (map (fun r => del r p k) M) = ncols M - k) as En.
  { apply rect_ncols; auto. intros E. apply map_eq_nil in E. contradiction. }
  unfold norm. rewrite En.
  unfold arr2_remove_cols. rewrite Hrows, Hcols. unfold valid_col.
  replace (0 <? k) with true by lia. replace ((-1 <? p) && (p <? ncols M)) with true by lia.
  rewrite (ladd_ok p k) by (unfold LONG_MIN; lia). cbn [bind]. rewrite (lsub_ok (p + k) 1) by (unfold LONG_MIN; lia). cbn [bind].
  replace ((-1 <? p + k - 1) && (p + k - 1 <? ncols M)) with true by lia. rewrite !check_debug_true. cbn [bind].
  rewrite !lsub_ok by (unfold LONG_MIN; lia). cbn [bind]. 
  destruct (Z.eqb_spec (ncols M - k) 0) as [E0|E0].
  - rewrite arr2_new_ok by (rewrite ?E0; try reflexivity; lia). rewrite E0. cbn [bind drows dcols dat buf an].
    replace p with 0 by lia. unfold copy_cols, copy_cols3. cbn [src_of_arr2 s2rows s2un].
    assert (forall (body : Z -> Z -> list V -> outcome (list V)) m (b : list V),
      for_ 0 m (fun i b => for_ 0 0 (body i) b) b = Ok b) as Hempty.
    { intros body m b. destruct (Z.leb_spec m 0); [now apply for_empty|].
      destruct (for_inv (fun _ s => s = b) 0 m (fun i b => for_ 0 0 (body i) b) b) as (s & E & ->); auto; [lia|].
      intros i s Hi ->. exists b. split; [now apply for_empty|reflexivity]. }
    rewrite (Hempty (fun i j b => v <- un2 a i j ;; set2 0 b i j v)). cbn [bind]. lon.
    replace (ncols M - 0 - k) with 0 by lia.
    rewrite (Hempty (fun i j b => j1 <- ladd j (0 + k) ;; v <- un2 a i j1 ;; j2 <- ladd j 0 ;; set2 0 b i j2 v)). cbn [bind].
    eexists. split; [reflexivity|]. split; [apply wfm_nil|]. repeat split.
  - assert (shape_ok (zlen M) (ncols M - k) = true) as Hs' by (apply shape_ok_true; lia).
    assert (zlen M * (ncols M - k) <= zlen M * ncols M) by nia.
    rewrite arr2_new_ok by (auto; nia). cbn [bind drows dcols dat buf an].
    set (b0 := repeat zero _).
    assert (zlen b0 = zlen M * (ncols M - k)) as L0 by (apply zlen_repeat; nia).
    destruct (copy_cols_ok (src_of_arr2 a) M (zlen M) (ncols M - k) b0 HPA L0) with (k := p) as (b1 & -> & L1 & G1); try lia.
    cbn [bind]. lon.
    destruct (copy_cols3_ok (src_of_arr2 a) M (zlen M) (ncols M - k) b1 HPA L1) with (s1 := p + k) (s2 := p) (k := ncols M - p - k)
      as (b2 & -> & L2 & G2); try lia. cbn [bind].
    eexists. split; [reflexivity|]. apply rep2_intro; auto.
    + apply zlen_map.
    + intros i j Hi Hj. rewrite G2, G1 by assumption. rewrite mget_map. unfold mget.
      destruct (znth_some M i Hi) as [r Er]. rewrite Er. pose proof (rect_nth _ _ _ _ Hrect Er) as Lr. rewrite znth_del by lia.
      destruct ((i <? zlen M) && (p <=? j) && (j <? p + (ncols M - p - k))) eqn:B.
      * replace (j <? p) with false by lia. f_equal. lia.
      * replace (j <? p) with true by lia. now replace (i <? zlen M) with true by lia.
Qed.

Lemma insert_rows_ok fresh p A N : produces2 A N -> 0 <= p <= zlen M -> M <> [] -> ncols N = ncols M ->
  (zlen M + zlen N) * ncols M <= amax c ->
  exists a', arr2_insert_rows_gen zero c fresh p A a = Ok a' /\ rep2 a' (ins M p N).
Proof.
  intros HA Hp HMne Hn Hsz. unfold cfg_ok in Hc. pose proof Hshape as Hs. apply shape_ok_true in Hs as (Z1 & Z2 & Z3).
  apply nonempty_len in HMne. pose proof (zlen_nonneg N) as LN0.
  assert (shape_ok (zlen M + zlen N) (ncols M) = true) as Hs' by (apply shape_ok_true; lia).
  assert (zlen M + zlen N <= LONG_MAX /\ ncols M <= LONG_MAX) as [LMN LN] by (apply dims_long; lia).
  unfold arr2_insert_rows_gen. rewrite Hrows, Hcols. pose proof HA as (_ & HAr & HAc & _). rewrite HAr, HAc.
  replace ((0 <=? p) && (p <=? zlen M)) with true by lia. replace ((zlen M =? 0) && (ncols M =? 0)) with false by lia.
  replace (ncols N =? ncols M) with true by lia. rewrite !check_debug_true. cbn [bind].
  rewrite !ladd_ok by (unfold LONG_MIN; lia). cbn [bind]. rewrite arr2_new_ok by (auto; lia). cbn [bind drows dcols dat buf an].
  set (b0 := repeat zero _).
  assert (zlen b0 = (zlen M + zlen N) * ncols M) as L0 by (apply zlen_repeat; nia).
  assert (zlen N * ncols M <= LONG_MAX /\ zlen M * ncols M <= LONG_MAX) as [S1 S2] by nia.
  destruct (copy_rows_ok (src_of_arr2 a) M (zlen M + zlen N) (ncols M) b0 HPA L0) with (k := p) as (b1 & -> & L1 & G1); try lia.
  cbn [bind].
  destruct (copy_rows3_ok A N (zlen M + zlen N) (ncols M) b1 HA L1) with (s1 := 0) (s2 := p) (k := zlen N)
    as (b2 & -> & L2 & G2); try lia. cbn [bind]. lon.
  destruct (copy_rows3_ok (src_of_arr2 a) M (zlen M + zlen N) (ncols M) b2 HPA L2) with (s1 := p) (s2 := p + zlen N) (k := zlen M - p)
    as (b3 & -> & L3 & G3); try lia. cbn [bind].
  eexists. split; [reflexivity|]. apply rep2_intro; auto.
  - apply rect_ins; auto. rewrite <- Hn. apply wfm_rect, HA.
  - apply zlen_ins. lia.
  - intros i j Hi Hj. rewrite G3, G2, G1 by assumption. unfold mget at 4. rewrite znth_ins by lia. unfold mget.
    replace (j <? ncols M) with true by lia. replace (j <? ncols N) with true by lia. rewrite !andb_true_r.
    destruct (Z.ltb_spec i p).
    + replace ((p + zlen N <=? i) && (i <? p + zlen N + (zlen M - p))) with false by lia.
      replace ((p <=? i) && (i <? p + zlen N)) with false by lia. reflexivity.
    + destruct (Z.ltb_spec i (p + zlen N)).
      * replace ((p + zlen N <=? i) && (i <? p + zlen N + (zlen M - p))) with false by lia.
        replace ((p <=? i) && true) with true by lia. now rewrite Z.add_0_r.
      * replace ((p + zlen N <=? i) && (i <? p + zlen N + (zlen M - p))) with true by lia.
        now replace (i - (p + zlen N) + p) with (i - zlen N) by lia.
Qed.

Lemma znth_zipw {X Y} (f : list V -> X -> Y) (L : list X) i r x : znth M i = Some r -> znth L i = Some x ->
  znth (zipw f M L) i = Some (f r x).
Proof. intros H1 H2. unfold zipw. rewrite znth_map. now rewrite (znth_combine _ _ _ _ _ H1 H2). Qed.
Lemma rect_zipw {X} n (f : list V -> X -> list V) (L : list X) : zlen L = zlen M ->
  (forall i r x, znth M i = Some r -> znth L i = Some x -> zlen (f r x) = n) -> rect n (zipw f M L).
Proof.
  intros HL H. apply Forall_forall. intros r Hin. apply in_znth in Hin as (i & Hi).
  assert (zlen (zipw f M L) = zlen M) as LZ. { unfold zipw. rewrite zlen_map. now apply zlen_combine. }
  assert (0 <= i < zlen M) as Ri by (apply znth_lt in Hi; lia).
  destruct (znth_some M i Ri) as [r' E1]. destruct (znth_some L i) as [x E2]; [lia|].
  rewrite (znth_zipw _ _ _ _ _ E1 E2) in Hi. injection Hi as <-. now apply (H i).
Qed.

Lemma insert_cols_ok fresh p A N : produces2 A N -> 0 <= p <= ncols M -> M <> [] -> zlen N = zlen M ->
  zlen M * (ncols M + ncols N) <= amax c ->
  exists a', arr2_insert_cols_gen zero c fresh p A a = Ok a' /\ rep2 a' (zipw (fun r s => ins r p s) M N).
Proof.
  intros HA Hp HMne Hn Hsz. unfold cfg_ok in Hc. pose proof Hshape as Hs. apply shape_ok_true in Hs as (Z1 & Z2 & Z3).
  apply nonempty_len in HMne. pose proof (ncols_nonneg N) as LN0.
  assert (shape_ok (zlen M) (ncols M + ncols N) = true) as Hs' by (apply shape_ok_true; lia).
  assert (zlen M <= LONG_MAX /\ ncols M + ncols N <= LONG_MAX) as [LMN LN] by (apply dims_long; lia).
  unfold arr2_insert_cols_gen. rewrite Hrows, Hcols. pose proof HA as (_ & HAr & HAc & _). rewrite HAr, HAc.
  replace ((0 <=? p) && (p <=? ncols M)) with true by lia. replace ((zlen M =? 0) && (ncols M =? 0)) with false by lia.
  replace (zlen N =? zlen M) with true by lia. rewrite !check_debug_true. cbn [bind].
  rewrite !ladd_ok by (unfold LONG_MIN; lia). cbn [bind]. rewrite arr2_new_ok by (auto; lia). cbn [bind drows dcols dat buf an].
  set (b0 := repeat zero _).
  assert (zlen b0 = zlen M * (ncols M + ncols N)) as L0 by (apply zlen_repeat; nia).
  assert (zlen M * ncols N <= LONG_MAX /\ zlen M * ncols M <= LONG_MAX) as [S1 S2] by nia.
  destruct (copy_cols_ok (src_of_arr2 a) M (zlen M) (ncols M + ncols N) b0 HPA L0) with (k := p) as (b1 & -> & L1 & G1); try lia.
  cbn [bind].
  destruct (copy_cols3_ok A N (zlen M) (ncols M + ncols N) b1 HA L1) with (s1 := 0) (s2 := p) (k := ncols N)
    as (b2 & -> & L2 & G2); try lia. cbn [bind]. lon.
  destruct (copy_cols3_ok (src_of_arr2 a) M (zlen M) (ncols M + ncols N) b2 HPA L2) with (s1 := p) (s2 := p + ncols N) (k := ncols M - p)
    as (b3 & -> & L3 & G3); try lia. cbn [bind].
  eexists. split; [reflexivity|]. apply rep2_intro; auto.
  - apply rect_zipw; [assumption|]. intros i r s E1 E2. pose proof (rect_nth _ _ _ _ Hrect E1).
    pose proof (rect_nth _ _ _ _ (wfm_rect _ (proj1 HA)) E2). rewrite zlen_ins; lia.
  - unfold zipw. rewrite zlen_map. now apply zlen_combine.
  - intros i j Hi Hj. rewrite G3, G2, G1 by assumption. unfold mget. rewrite Hn.
    destruct (znth_some M i Hi) as [r Er]. destruct (znth_some N i) as [s Es]; [lia|].
    pose proof (rect_nth _ _ _ _ Hrect Er) as Lr. pose proof (rect_nth _ _ _ _ (wfm_rect _ (proj1 HA)) Es) as Ls.
    rewrite (znth_zipw _ _ _ _ _ Er Es). rewrite Er, Es. rewrite znth_ins by lia. rewrite Ls.
    replace (i <? zlen M) with true by lia. cbn [andb].
    destruct (Z.ltb_spec j p).
    + replace ((p + ncols N <=? j) && (j <? p + ncols N + (ncols M - p))) with false by lia.
      replace ((p <=? j) && (j <? p + ncols N)) with false by lia. reflexivity.
    + destruct (Z.ltb_spec j (p + ncols N)).
      * replace ((p + ncols N <=? j) && (j <? p + ncols N + (ncols M - p))) with false by lia.
        replace ((p <=? j) && true) with true by lia. now rewrite Z.add_0_r.
      * replace ((p + ncols N <=? j) && (j <? p + ncols N + (ncols M - p))) with true by lia.
        now replace (j - (p + ncols N) + p) with (j - ncols N) by lia.
Qed.
End Ops.
End P.
