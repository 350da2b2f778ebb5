(** Maps and matrix products, for any arithmetic. *)
From Coq Require Import ZArith List Permutation Lia.
From Verif Require Import Base.Outcome Base.ZList Model.IntModel Model.ScalarOps Model.Index Model.Slice Model.Array1D Model.Array2D Model.Store1D Model.StableOps Model.Eigen.
From Verif Require Import Spec.ArraySpec Spec.SliceSpec Spec.Store1DSpec Spec.MatrixSpec Spec.Matrix2Spec Spec.ReduceSpec Spec.StableSpec Spec.EigenSpec.
From Verif Require Import Proofs.ScalarProofs Proofs.Array1DProofs Proofs.SliceProofs Proofs.ViewProofs Proofs.Store1DProofs Proofs.MatrixProofs Proofs.Array2DProofs.
Import ListNotations.
Local Open Scope Z_scope.

(** ** Alignment *)
Lemma align_divides al : eigen_align al = 0 \/ (eigen_align al = al /\ al <> 0).
Proof.
  unfold eigen_align.
  destruct (Z.eqb_spec al 0); [now left|]. destruct (Z.eqb_spec al 8); [right; lia|]. destruct (Z.eqb_spec al 16); [right; lia|].
  destruct (Z.eqb_spec al 32); [right; lia|]. destruct (Z.eqb_spec al 64); [right; lia|]. destruct (Z.eqb_spec al 128); [right; lia|now left].
Qed.
Theorem align_safe al addr : (al <> 0 -> (al | addr)) -> eigen_align al <> 0 -> (eigen_align al | addr).
Proof. intros H N. destruct (align_divides al) as [E|[-> E]]; [contradiction|]. now apply H. Qed.
Theorem align_kept f : eigen_align (alignment_of f) = alignment_of f.
Proof. now destruct f. Qed.

Section GEN.
Context {V : Type}.
Implicit Types (M N K : list (list V)).

(** ** Rows, columns and grids *)
Lemma zlen_zseq lo k : zlen (zseq lo k) = Z.of_nat k.
Proof. revert lo. induction k as [|k IH]; intros lo; [reflexivity|]. cbn [zseq]. rewrite zlen_cons, IH. lia. Qed.
Lemma znth_zseq k : forall lo i, 0 <= i < Z.of_nat k -> znth (zseq lo k) i = Some (lo + i).
Proof.
  induction k as [|k IH]; intros lo i Hi; [lia|]. cbn [zseq]. destruct (Z.eq_dec i 0) as [->|Hn]; [rewrite znth_cons_0; f_equal; lia|].
  rewrite znth_cons_pos by lia. rewrite IH by lia. f_equal. lia.
Qed.
Lemma zmap {A B} (f : A -> B) l : zlen (map f l) = zlen l.
Proof. unfold zlen. now rewrite map_length. Qed.
Lemma grid_len (m n : Z) (T : Z -> Z -> V) : 0 <= m -> zlen (grid m n T) = m.
Proof. intros H. unfold grid. rewrite zmap, zlen_zseq. lia. Qed.
Lemma grid_rect (m n : Z) (T : Z -> Z -> V) : 0 <= n -> rect n (grid m n T).
Proof. intros H. unfold grid, rect. apply Forall_map, Forall_forall. intros i _. rewrite zmap, zlen_zseq. lia. Qed.
Lemma znth_mapz {A B} (f : A -> B) l i : znth (map f l) i = option_map f (znth l i).
Proof. unfold znth. destruct (i <? 0); [reflexivity|]. apply nth_error_map. Qed.
Lemma grid_get (m n : Z) (T : Z -> Z -> V) i j : 0 <= i < m -> 0 <= j < n -> mget (grid m n T) i j = Some (T i j).
Proof.
  intros Hi Hj. unfold mget, grid. rewrite znth_mapz, znth_zseq by lia. cbn [option_map]. rewrite znth_mapz, znth_zseq by lia. cbn [option_map]. do 2 f_equal; lia.
Qed.
Lemma grid_ncols (m n : Z) (T : Z -> Z -> V) : 0 < m -> 0 <= n -> ncols (grid m n T) = n.
Proof. intros Hm Hn. apply rect_ncols; [now apply grid_rect|]. apply nonempty_len. rewrite grid_len; lia. Qed.

Lemma line_get M i j : znth (line M i) j = mget M i j.
Proof. unfold line, mget. destruct (znth M i); [reflexivity|]. apply znth_nil. Qed.
Lemma line_len M i : wfm M -> 0 <= i < zlen M -> zlen (line M i) = ncols M.
Proof. intros Hw Hi. unfold line. destruct (znth_some M i Hi) as [r E]. rewrite E. eapply rect_nth; [apply wfm_rect, Hw|exact E]. Qed.
Lemma column_map n j M d : rect n M -> 0 <= j < n -> column M j = map (fun r => match znth r j with Some v => v | None => d end) M.
Proof.
  intros HR Hj. induction M as [|r M IH]; [reflexivity|]. inversion HR; subst. cbn [column flat_map map]. destruct (znth_some r j) as [v E]; [lia|]. rewrite E. cbn [app]. f_equal. now apply IH.
Qed.
Lemma column_get M i j : wfm M -> 0 <= j < ncols M -> znth (column M j) i = mget M i j.
Proof.
  intros Hw Hj. pose proof (wfm_rect _ Hw) as HR. assert (exists d : V, True) as [d _].
  { destruct M as [|r M']; [cbn in Hj; lia|]. destruct (znth_some r j) as [v _]; [exact Hj|]. now exists v. }
  rewrite (column_map _ j M d HR Hj), znth_mapz. unfold mget. destruct (znth M i) as [r|] eqn:E; [|reflexivity]. cbn [option_map].
  destruct (znth_some r j) as [v Ev]; [rewrite (rect_nth _ _ _ _ HR E); exact Hj|]. now rewrite Ev.
Qed.
Lemma column_len M j : wfm M -> 0 <= j < ncols M -> zlen (column M j) = zlen M.
Proof.
  intros Hw Hj. pose proof (wfm_rect _ Hw) as HR. destruct M as [|r M']; [reflexivity|]. destruct (znth_some r j) as [v _]; [exact Hj|]. rewrite (column_map _ j _ v HR Hj). apply zmap.
Qed.

(** ** Coefficients *)
Lemma coeff_more (O : eops V) a b a' b' s : forall v, (forall p x, a p = Ok x -> a' p = Ok x) -> (forall p x, b p = Ok x -> b' p = Ok x) -> coeff O a b s = Ok v -> coeff O a' b' s = Ok v.
Proof.
  intros v Ha Hb. revert v. induction s as [|p|p s IH|s IHs t IHt|s IH]; intros v; cbn [coeff].
  - auto.
  - destruct (a p) as [x| |] eqn:EA; cbn [bind]; try discriminate. rewrite (Ha _ _ EA). destruct (b p) as [y| |] eqn:EB; cbn [bind]; try discriminate. now rewrite (Hb _ _ EB).
  - destruct (a p) as [x| |] eqn:EA; cbn [bind]; try discriminate. rewrite (Ha _ _ EA). destruct (b p) as [y| |] eqn:EB; cbn [bind]; try discriminate. rewrite (Hb _ _ EB). cbn [bind].
    destruct (coeff O a b s) as [z| |] eqn:ES; cbn [bind]; try discriminate. now rewrite (IH _ eq_refl).
  - destruct (coeff O a b s) as [x| |] eqn:ES; cbn [bind]; try discriminate. destruct (coeff O a b t) as [y| |] eqn:ET; cbn [bind]; try discriminate. now rewrite (IHs _ eq_refl), (IHt _ eq_refl).
  - destruct (coeff O a b s) as [x| |] eqn:ES; cbn [bind]; try discriminate. now rewrite (IH _ eq_refl).
Qed.

(** ** Maps *)
Section MAPS.
Context (c : cfg) (Hc : cfg_ok c) (h : objs V).
Theorem map_get p M i j : rep2 (h p) M -> zlen M * ncols M <= amax c -> 0 <= i < zlen M -> 0 <= j < ncols M ->
  e_rows (e_map h p) = zlen M /\ e_cols (e_map h p) = ncols M /\ exists v, mget M i j = Some v /\ e_get h (e_map h p) i j = Ok v.
Proof.
  intros HR HL Hi Hj. pose proof HR as (Hw & H1 & H2 & _). split; [exact H1|]. split; [exact H2|].
  destruct (mget_some _ _ _ _ (wfm_rect _ Hw) Hi Hj) as [v E]. exists v. split; [exact E|].
  change (e_get h (e_map h p) i j) with (un2 (h p) i j). rewrite (un2_ok v c Hc _ _ HR HL _ _ Hi Hj). unfold mval. now rewrite E.
Qed.
Lemma map_get_oget p M i j : rep2 (h p) M -> zlen M * ncols M <= amax c -> 0 <= i < zlen M -> 0 <= j < ncols M -> e_get h (e_map h p) i j = match mget M i j with Some v => Ok v | None => UB end.
Proof. intros HR HL Hi Hj. destruct (map_get p M i j HR HL Hi Hj) as (_ & _ & v & E & ->). now rewrite E. Qed.
Theorem map_set p M i j v : rep2 (h p) M -> zlen M * ncols M <= amax c -> 0 <= i < zlen M -> 0 <= j < ncols M ->
  exists h', e_set h (e_map h p) i j v = Ok h' /\ (forall q, q <> p -> h' q = h q) /\
  exists M', rep2 (h' p) M' /\ zlen M' = zlen M /\ ncols M' = ncols M /\
    forall i' j', 0 <= i' < zlen M -> 0 <= j' < ncols M -> mget M' i' j' = if (i' =? i) && (j' =? j) then Some v else mget M i' j'.
Proof.
  intros HR HL Hi Hj. pose proof HR as (Hw & H1 & H2 & H3). pose proof (rep2_len _ _ HR) as LB. pose proof (rep2_an _ _ HR) as LA. unfold e_set. cbn [e_map e_at e_cols e_rows]. rewrite H2.
  rewrite (set2_ok (zlen M)) by (try assumption; unfold cfg_ok in Hc; lia). cbn [bind]. eexists. split; [reflexivity|]. split; [intros q Hq; now rewrite (proj2 (Z.eqb_neq q p) Hq)|]. rewrite Z.eqb_refl. cbn [dat buf].
  set (M' := grid (zlen M) (ncols M) (fun i' j' => if (i' =? i) && (j' =? j) then v else mval v M i' j')). exists M'.
  assert (HM : forall i' j', 0 <= i' < zlen M -> 0 <= j' < ncols M -> mget M' i' j' = if (i' =? i) && (j' =? j) then Some v else mget M i' j').
  { intros i' j' Hi' Hj'. unfold M'. rewrite grid_get by assumption. destruct ((i' =? i) && (j' =? j)); [reflexivity|]. apply (mval_some v (ncols M)); auto. now apply wfm_rect. }
  split; [|split; [apply grid_len; lia|split; [apply grid_ncols; lia|exact HM]]].
  rewrite H1, LA. eapply (rep2_intro (zlen M) (ncols M)); [apply grid_rect; lia|apply grid_len; lia|exact (rep2_shape _ _ HR)|now rewrite zlen_zupd|].
  intros i' j' Hi' Hj'. rewrite (get2_zupd (zlen M)) by assumption. rewrite HM by assumption. destruct ((i' =? i) && (j' =? j)); [reflexivity|]. now apply rep2_get.
Qed.
End MAPS.

(** ** Simulation of loops *)
Lemma for_loop_sim {A B} (R : A -> B -> Prop) (f : Z -> A -> outcome A) (g : Z -> B -> outcome B) k : forall lo s b b',
  (forall i s b b', lo <= i < lo + Z.of_nat k -> R s b -> g i b = Ok b' -> exists s', f i s = Ok s' /\ R s' b') -> R s b -> for_loop k lo g b = Ok b' -> exists s', for_loop k lo f s = Ok s' /\ R s' b'.
Proof.
  induction k as [|k IH]; intros lo s b b' HB HR HG; cbn [for_loop] in *; [injection HG as <-; now exists s|].
  destruct (g lo b) as [b1| |] eqn:E; cbn [bind] in HG; try discriminate. destruct (HB lo s b b1 ltac:(lia) HR E) as (s1 & E1 & R1). rewrite E1. cbn [bind].
  apply (IH (lo + 1) s1 b1 b'); auto. intros i s2 b2 b2' Hi. apply HB. lia.
Qed.
Lemma for_sim {A B} (R : A -> B -> Prop) (f : Z -> A -> outcome A) (g : Z -> B -> outcome B) lo hi s b b' :
  (forall i s b b', lo <= i < hi -> R s b -> g i b = Ok b' -> exists s', f i s = Ok s' /\ R s' b') -> R s b -> for_ lo hi g b = Ok b' -> exists s', for_ lo hi f s = Ok s' /\ R s' b'.
Proof. intros H. apply for_loop_sim. intros i s0 b0 b0' Hi. apply H. lia. Qed.

(** ** The product *)
Section PROD.
Context (c : cfg) (Hc : cfg_ok c) (O : eops V) (sch : Z -> Z -> sched) (h : objs V) (pa pb pc : Z) (M N K : list (list V)).
Hypotheses (RA : rep2 (h pa) M) (RB : rep2 (h pb) N) (RC : rep2 (h pc) K).
Hypotheses (LA : zlen M * ncols M <= amax c) (LB : zlen N * ncols N <= amax c) (LC : zlen M * ncols N <= amax c).
Notation m := (zlen M).
Notation n := (ncols N).

Lemma product_ok (T : Z -> Z -> V) : ncols M = zlen N ->
  (forall i j, 0 <= i < m -> 0 <= j < n -> coeff O (oget (line M i)) (oget (column N j)) (sch i j) = Ok (T i j)) ->
  exists t, e_product c O sch h (e_map h pa) (e_map h pb) = Ok t /\ zlen t = m * n /\ forall i j, 0 <= i < m -> 0 <= j < n -> get2 n t i j = Some (T i j).
Proof.
  intros HD HT. pose proof RA as (WA & A1 & A2 & _). pose proof RB as (WB & B1 & B2 & _). unfold e_product. cbn [e_map e_rows e_cols]. rewrite A1, A2, B1, B2, HD, Z.eqb_refl. cbn [eigen_assert bind].
  pose proof (zlen_nonneg M) as M0. pose proof (ncols_nonneg N) as N0. unfold cfg_ok in Hc. replace (amax c <? m * n) with false by lia.
  assert (0 <= m * n) as MN by nia.
  destruct (rect_fill m n m n 0 0 T (fun i j t => v <- coeff O (fun p => e_get h (mkemap pa m (zlen N)) i p) (fun p => e_get h (mkemap pb (zlen N) n) p j) (sch i j) ;; set2 n t i j v) (repeat (e_zero O) (Z.to_nat (m * n)))) as (t & E & L & G); try lia.
  { unfold zlen at 1. rewrite repeat_length. lia. }
  { intros i j b Hi Hj. rewrite !Z.add_0_r. rewrite (coeff_more O (oget (line M i)) (oget (column N j)) _ _ (sch i j) (T i j)); [reflexivity| | |now apply HT].
    - intros p x. unfold oget. destruct (znth (line M i) p) as [y|] eqn:E; [|discriminate]. intros H. injection H as <-. pose proof (znth_lt _ _ _ E) as Hp. rewrite (line_len M i WA Hi) in Hp. rewrite line_get in E.
      assert (e_map h pa = mkemap pa m (zlen N)) as <- by (unfold e_map; rewrite A1, A2, HD; reflexivity). rewrite (map_get_oget c Hc h pa M i p RA LA Hi Hp). now rewrite E.
    - intros p x. unfold oget. destruct (znth (column N j) p) as [y|] eqn:E; [|discriminate]. intros H. injection H as <-. pose proof (znth_lt _ _ _ E) as Hp. rewrite (column_len N j WB Hj) in Hp. rewrite (column_get N p j WB Hj) in E.
      assert (e_map h pb = mkemap pb (zlen N) n) as <- by (unfold e_map; rewrite B1, B2; reflexivity). rewrite (map_get_oget c Hc h pb N p j RB LB Hp Hj). now rewrite E. }
  exists t. split; [|split; [exact L|]].
  - rewrite <- E. unfold e_map. now rewrite A1, A2, B1, B2, HD.
  - intros i j Hi Hj. rewrite G by assumption. replace ((0 <=? i) && (i <? 0 + m) && (0 <=? j) && (j <? 0 + n)) with true by lia. now rewrite !Z.sub_0_r.
Qed.

Theorem prod3_ok (T : Z -> Z -> V) : ncols M = zlen N -> zlen K = zlen M -> ncols K = ncols N ->
  (forall i j, 0 <= i < m -> 0 <= j < n -> coeff O (oget (line M i)) (oget (column N j)) (sch i j) = Ok (T i j)) ->
  exists h', matrix_prod3 c O sch h pa pb pc = MOk h' /\ rep2 (h' pc) (grid m n T) /\ forall q, q <> pc -> h' q = h q.
Proof.
  intros HD HK1 HK2 HT. destruct (product_ok T HD HT) as (t & ET & Lt & Gt). pose proof RA as (WA & A1 & A2 & _). pose proof RB as (WB & B1 & B2 & _). pose proof RC as (WC & C1 & C2 & _).
  pose proof (zlen_nonneg M) as M0. pose proof (ncols_nonneg N) as N0. unfold cfg_ok in Hc. assert (0 <= m * n) as MN by nia.
  unfold matrix_prod3. rewrite A1, A2, B1, B2, C1, C2, HD, HK1, HK2, !Z.eqb_refl, !check_debug_true. cbn [bind]. rewrite ET. cbn [bind].
  unfold e_assign. cbn [e_map e_rows e_cols e_at]. rewrite A1, B2, C1, C2, HK1, HK2, !Z.eqb_refl. cbn [andb eigen_assert bind].
  pose proof (rep2_len _ _ RC) as LK. pose proof (rep2_an _ _ RC) as NK. rewrite HK1, HK2 in LK, NK.
  destruct (rect_fill m n m n 0 0 T (fun i j b => p <- lmul i n ;; q <- ladd p j ;; v <- oget t q ;; set2 n b i j v) (buf (dat (h pc)))) as (b' & E & L & G); try lia.
  { intros i j b Hi Hj. pose proof (addr_range m n i j Hi Hj) as AR. assert (0 <= i * n) by nia. rewrite lmul_ok by (unfold LONG_MIN; lia). cbn [bind]. rewrite ladd_ok by (unfold LONG_MIN; lia). cbn [bind].
    rewrite (oget_ok _ _ _ (Gt i j Hi Hj)). cbn [bind]. now rewrite !Z.add_0_r. }
  set (R := fun (s : objs V) (b : list V) => drows (s pc) = m /\ dcols (s pc) = n /\ buf (dat (s pc)) = b /\ an (dat (s pc)) = m * n /\ forall q, q <> pc -> s q = h q).
  match goal with |- exists h', commit h (for_ 0 m ?f h) = _ /\ _ => destruct (for_sim R f (fun i b => for_ 0 n (fun j b => p <- lmul i n ;; q <- ladd p j ;; v <- oget t q ;; set2 n b i j v) b) 0 m h (buf (dat (h pc))) b') as (h' & EH & HR) end.
  { intros i s b b1 Hi Rs Hg. eapply (for_sim R); [|exact Rs|exact Hg]. clear s b b1 Rs Hg. intros j s b b1 Hj (R1 & R2 & R3 & R4 & R5).
    destruct (lmul i n) as [p| |]; cbn [bind]; try discriminate. destruct (ladd p j) as [q| |]; cbn [bind]; try discriminate. destruct (oget t q) as [v| |]; cbn [bind]; try discriminate.
    intros Hs. unfold e_set, e_map. cbn [e_at e_cols]. rewrite C2, HK2, R3, Hs. cbn [bind]. eexists. split; [reflexivity|]. unfold R. rewrite Z.eqb_refl. cbn [drows dcols dat buf an].
    repeat (split; [first [assumption|reflexivity]|]). intros r Hr. rewrite (proj2 (Z.eqb_neq r pc) Hr). now apply R5. }
  { unfold R. rewrite C1, C2, HK1, HK2, NK. now repeat split. }
  { exact E. }
  exists h'. destruct HR as (R1 & R2 & R3 & R4 & R5). split; [|split; [|exact R5]].
  - rewrite EH. reflexivity.
  - destruct (h' pc) as [r k [b0 z]]. cbn [drows dcols dat buf an] in R1, R2, R3, R4. subst r k b0 z. eapply rep2_intro; [now apply grid_rect|now apply grid_len| |exact L|].
    + apply shape_ok_true. pose proof (rep2_shape _ _ RA) as SA. pose proof (rep2_shape _ _ RB) as SB. apply shape_ok_true in SA, SB. lia.
    + intros i j Hi Hj. rewrite G by assumption. replace ((0 <=? i) && (i <? 0 + m) && (0 <=? j) && (j <? 0 + n)) with true by lia. rewrite !Z.sub_0_r. now rewrite grid_get.
Qed.

(** Mismatched sizes. *)
Theorem prod3_reported : checked c = true -> ncols M <> zlen N \/ zlen K <> zlen M \/ ncols K <> ncols N -> matrix_prod3 c O sch h pa pb pc = MFail (report c) h.
Proof.
  intros HC HD. pose proof RA as (WA & A1 & A2 & _). pose proof RB as (WB & B1 & B2 & _). pose proof RC as (WC & C1 & C2 & _). unfold matrix_prod3. rewrite A1, A2, B1, B2, C1, C2.
  assert (CF : check_debug c (Ok false) = Fail (report c)) by now apply check_debug_false.
  destruct (Z.eqb_spec (ncols M) (zlen N)); [|rewrite CF; reflexivity]. rewrite check_debug_true. cbn [bind].
  destruct (Z.eqb_spec (zlen K) (zlen M)); [|rewrite CF; reflexivity]. rewrite check_debug_true. cbn [bind].
  destruct (Z.eqb_spec (ncols K) (ncols N)); [|rewrite CF; reflexivity]. lia.
Qed.
Lemma check_debug_unchecked b : checked c = false -> check_debug c (Ok b) = Ok tt.
Proof. intros HC. destruct (check_debug_cases c b) as [[H _]|(_ & _ & H)]; [exact H|congruence]. Qed.
(** The inner dimensions without the library's check: Eigen's own assertion, if it is compiled. *)
Theorem prod3_inner : checked c = false -> ncols M <> zlen N -> matrix_prod3 c O sch h pa pb pc = if ndbg c then MUB else MFail Abort h.
Proof.
  intros HC HD. pose proof RA as (WA & A1 & A2 & _). pose proof RB as (WB & B1 & B2 & _). unfold matrix_prod3, e_product, eigen_assert. cbn [e_map e_rows e_cols]. rewrite A2, B1. rewrite !check_debug_unchecked by exact HC. cbn [bind]. replace (ncols M =? zlen N) with false by lia. now destruct (ndbg c).
Qed.
Theorem prod3_outer (T : Z -> Z -> V) : checked c = false -> ncols M = zlen N -> zlen K <> zlen M \/ ncols K <> ncols N ->
  (forall i j, 0 <= i < m -> 0 <= j < n -> coeff O (oget (line M i)) (oget (column N j)) (sch i j) = Ok (T i j)) ->
  matrix_prod3 c O sch h pa pb pc = if ndbg c then MUB else MFail Abort h.
Proof.
  intros HC HD HK HT. destruct (product_ok T HD HT) as (t & ET & _). pose proof RA as (WA & A1 & A2 & _). pose proof RB as (WB & B1 & B2 & _). pose proof RC as (WC & C1 & C2 & _).
  unfold matrix_prod3. rewrite !check_debug_unchecked by exact HC. cbn [bind]. rewrite ET. cbn [bind]. unfold e_assign, eigen_assert. cbn [e_map e_rows e_cols]. rewrite A1, B2, C1, C2.
  replace ((zlen K =? m) && (ncols K =? n)) with false by lia. now destruct (ndbg c).
Qed.
End PROD.

Section VALUE.
Context (c : cfg) (Hc : cfg_ok c) (O : eops V) (sch : Z -> Z -> sched) (A B : arr2 V) (M N : list (list V)).
Hypotheses (RA : rep2 A M) (RB : rep2 B N).
Notation m := (zlen M).
Notation n := (ncols N).
Theorem prod_ok (T : Z -> Z -> V) : ncols M = zlen N -> zlen M * ncols M <= amax c -> zlen N * ncols N <= amax c -> m * n <= amax c ->
  (forall i j, 0 <= i < m -> 0 <= j < n -> coeff O (oget (line M i)) (oget (column N j)) (sch i j) = Ok (T i j)) ->
  exists C, matrix_prod c O sch A B = Ok C /\ rep2 C (grid m n T).
Proof.
  intros HD LA LB LC HT. pose proof RA as (WA & A1 & A2 & _). pose proof RB as (WB & B1 & B2 & _). unfold matrix_prod. rewrite A1, A2, B1, B2, HD, Z.eqb_refl, check_debug_true. cbn [bind].
  pose proof (rep2_shape _ _ RA) as SA. pose proof (rep2_shape _ _ RB) as SB. apply shape_ok_true in SA, SB. assert (SH : shape_ok m n = true) by (apply shape_ok_true; lia).
  rewrite (arr2_new_ok _ c Hc) by assumption. cbn [bind]. set (C0 := mkarr2 m n _). assert (RC : rep2 C0 (grid m n (fun _ _ => e_zero O))).
  { eapply rep2_intro; [apply grid_rect; lia|apply grid_len; lia|exact SH| |].
    - unfold zlen at 1. rewrite repeat_length. assert (0 <= m * n) by nia. lia.
    - intros i j Hi Hj. rewrite (fresh_get _ m) by assumption. now rewrite grid_get. }
  assert (KN : ncols (grid m n (fun _ _ => e_zero O)) = n). { destruct (Z.eq_dec m 0) as [E|E]; [|apply grid_ncols; lia]. assert (n = 0) as E2 by lia. rewrite E, E2. reflexivity. }
  destruct (prod3_ok c Hc O sch (fun q => if q =? 0 then A else if q =? 1 then B else C0) 0 1 2 M N (grid m n (fun _ _ => e_zero O)) RA RB RC LA LB LC T HD) as (h' & E & R' & _); [apply grid_len; lia|exact KN|exact HT|].
  rewrite E. exists (h' 2). split; [reflexivity|exact R'].
Qed.
Theorem prod_reported : checked c = true -> ncols M <> zlen N -> matrix_prod c O sch A B = Fail (report c).
Proof.
  intros HC HD. pose proof RA as (WA & A1 & A2 & _). pose proof RB as (WB & B1 & B2 & _). unfold matrix_prod. rewrite A2, B1. replace (ncols M =? zlen N) with false by lia. now rewrite check_debug_false.
Qed.
End VALUE.
End GEN.
