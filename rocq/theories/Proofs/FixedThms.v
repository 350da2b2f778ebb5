(** Two-dimensional fixed-size arrays, and consequences for one-dimensional ones. *)
From Verif Require Import Base.Outcome Base.ZList Model.IntModel Model.ScalarOps Model.Index Model.Slice Model.Array1D Model.Array2D Model.Store1D Model.FixedArray.
From Verif Require Import Spec.ArraySpec Spec.SliceSpec Spec.Store1DSpec Spec.MatrixSpec Spec.Matrix2Spec Spec.FixedSpec.
From Verif Require Import Proofs.ScalarProofs Proofs.Array1DProofs Proofs.SliceProofs Proofs.ViewProofs Proofs.Store1DProofs Proofs.MatrixProofs Proofs.Array2DProofs Proofs.Array2DSim Proofs.FixedProofs.
Ltac Zify.zify_post_hook ::= Z.div_mod_to_equations.

Lemma mfor_of_for {S} (f : Z -> S -> outcome S) k : forall i s r, for_loop k i f s = Ok r -> mfor_loop k i (fun i s => commit s (f i s)) s = MOk r.
Proof.
  induction k as [|k IH]; intros i s r H; cbn in *; [congruence|]. destruct (f i s) as [t| |]; cbn in *; try discriminate. now apply IH.
Qed.
Lemma mfor_of_for2 {S} (f : Z -> Z -> S -> outcome S) (g : Z -> S -> mut S) lo hi k : (forall i s r, for_ lo hi (f i) s = Ok r -> g i s = MOk r) ->
  forall i s r, for_loop k i (fun i s => for_ lo hi (f i) s) s = Ok r -> mfor_loop k i g s = MOk r.
Proof.
  intros HG. induction k as [|k IH]; intros i s r H; cbn in *; [congruence|]. destruct (for_ lo hi (f i) s) as [t| |] eqn:E; cbn in *; try discriminate.
  rewrite (HG _ _ _ E). cbn. now apply IH.
Qed.

Section P.
Context {V : Type} (zero : V).
Implicit Types (l b : list V) (c : cfg) (M N L : list (list V)) (A : src2 V) (a : arr2 V).

Lemma rep2_shp a M : rep2 a M -> shape_ok (zlen M) (ncols M) = true.
Proof. intros (Hw & _). apply shape_ok_true. split; [apply zlen_nonneg|]. split; [apply ncols_nonneg|]. now apply wfm_zero. Qed.
Lemma rep2_ob a M : rep2 a M -> a = mkarr2 (zlen M) (ncols M) (mkarr (concat M) (zlen (concat M))).
Proof. intros (_ & E1 & E2 & E3 & E4). destruct a as [r k [b z]]. cbn in *. now subst. Qed.
Lemma rep2_concat a M : rep2 a M -> zlen (concat M) = zlen M * ncols M.
Proof. intros ([HR _] & _). now apply zlen_concat. Qed.
Lemma ob_rep2 M : wfm M -> rep2 (mkarr2 (zlen M) (ncols M) (mkarr (concat M) (zlen (concat M)))) M.
Proof. intros H. split; [exact H|]. now repeat split. Qed.

Theorem fx2_new_thm m n : shape_ok m n = true -> rep2 (fx2_new zero m n) (const_mat m n zero).
Proof. intros H. apply rep2_const; assumption. Qed.
Lemma const_dims m n (x : V) : shape_ok m n = true -> zlen (const_mat m n x) = m /\ ncols (const_mat m n x) = n.
Proof. intros H. pose proof (rep2_const m n x H) as (_ & E1 & E2 & _). cbn in *. auto. Qed.
Theorem fx2_set_all_thm a M x : rep2 a M -> exists a', fx2_set_all x a = Ok a' /\ rep2 a' (const_mat (zlen M) (ncols M) x).
Proof.
  intros H. pose proof (rep2_shp _ _ H) as HS. pose proof (rep2_concat _ _ H) as HC. rewrite (rep2_ob _ _ H). unfold fx2_set_all, arr2_set_all. cbn [dat drows dcols].
  pose proof (set_all_ob x (concat M)) as E. cbn in E. rewrite E. cbn [bind]. eexists. split; [reflexivity|].
  pose proof (rep2_const (zlen M) (ncols M) x HS) as G.
  replace (length (concat M)) with (Z.to_nat (zlen M * ncols M)) by (rewrite <- HC; unfold zlen; lia).
  rewrite zlen_repeat by (rewrite <- HC; apply zlen_nonneg). exact G.
Qed.

Theorem fx2_of_list_thm c m n L : shape_ok m n = true -> m * n <= LONG_MAX ->
  let R := matrix_of L in
  (good_list L = true /\ zlen R = m /\ ncols R = n -> exists a, fx2_of_list zero c m n L = Ok a /\ rep2 a R) /\
  (~ (good_list L = true /\ zlen R = m /\ ncols R = n) -> checked c = true -> fx2_of_list zero c m n L = Fail (report c)).
Proof.
  intros HS HM R.
  assert (list2_sizes L = (zlen R, ncols R) /\ valid_list2 L = good_list L) as (ES & EV).
  { unfold R. destruct L as [|r L]; [now split|]. destruct r as [|x r].
    - destruct L as [|q L]; [now split|]. unfold list2_sizes, valid_list2. replace (zlen ([] :: q :: L) =? 1) with false by (rewrite !zlen_cons; pose proof (zlen_nonneg L); lia). now split.
    - assert (0 < zlen (x :: r)) as Hr by (rewrite zlen_cons; pose proof (zlen_nonneg r); lia). rewrite sizes_cons, valid_cons, good_cons by assumption. now split. }
  split.
  - intros (HG & E1 & E2). unfold fx2_of_list. rewrite ES, EV, HG, check_debug_true, E1, E2, !Z.eqb_refl, !check_debug_true. cbn [bind].
    assert (0 <= m * n) as HP by (apply shape_ok_true in HS; nia).
    assert (rect n R) as HR.
    { unfold R in *. destruct L as [|r L]; [constructor|]. destruct r as [|x r]; [destruct L; [constructor|]|].
      - discriminate.
      - assert (0 < zlen (x :: r)) as Hr by (rewrite zlen_cons; pose proof (zlen_nonneg r); lia). rewrite good_cons in HG by assumption. apply Forall_forall. intros q Hq. change (matrix_of ((x :: r) :: L)) with ((x :: r) :: L) in *.
        cbn [ncols] in E2. rewrite <- E2. rewrite forallb_forall in HG. apply HG in Hq. lia. }
    assert (exists b, copy_list2 n 0 L (buf (fx_new zero (m * n))) = Ok b /\ zlen b = m * n /\ forall i j, 0 <= i < m -> 0 <= j < n -> get2 n b i j = mget R i j) as (b & -> & Lb & G).
    { unfold fx_new. cbn [buf].
      assert (L = [[]] \/ R = L) as [EL|EL] by (unfold R; destruct L as [|[|] [|]]; auto).
      - unfold R in *. rewrite EL in *. cbn in E1. subst m. exists (repeat zero (Z.to_nat (0 * n))). split; [reflexivity|]. split; [reflexivity|]. lia.
      - rewrite EL in *. destruct (copy_list2_ok m n L) with (r := 0) (b := repeat zero (Z.to_nat (m * n))) as (b & -> & Lb & G); auto; try lia; [apply zlen_repeat; nia|].
        exists b. split; [reflexivity|]. split; [assumption|]. intros i j Hi Hj. rewrite G by assumption. rewrite Z.sub_0_r. now replace ((0 <=? i) && (i <? 0 + zlen L)) with true by lia. }
    cbn [bind]. eexists. split; [reflexivity|]. now apply rep2_intro.
  - intros HN HC. unfold fx2_of_list. rewrite ES, EV. destruct (good_list L); [|now rewrite check_debug_false]. rewrite check_debug_true. cbn [bind].
    destruct (Z.eqb_spec m (zlen R)); [|now rewrite check_debug_false]. rewrite check_debug_true. cbn [bind].
    destruct (Z.eqb_spec n (ncols R)); [|now rewrite check_debug_false]. exfalso. apply HN. auto.
Qed.

Theorem fx2_of_src_thm c m n A N : shape_ok m n = true -> m * n <= LONG_MAX -> produces2 A N ->
  (zlen N = m -> ncols N = n -> exists a, fx2_of_src zero c m n A = Ok a /\ rep2 a N) /\
  (~ (zlen N = m /\ ncols N = n) -> checked c = true -> fx2_of_src zero c m n A = Fail (report c)).
Proof.
  intros HS HM HA. pose proof HA as (Hw & E1 & E2 & _). assert (0 <= m * n) as HP by (apply shape_ok_true in HS; nia). split.
  - intros EM EN. unfold fx2_of_src, same_size2. rewrite E1, E2, EM, EN, !Z.eqb_refl, check_debug_true. cbn [bind andb].
    rewrite (copy2_ok zero A N m n); auto; [|unfold fx_new; cbn [buf]; apply zlen_repeat; lia|now rewrite EM, EN]. cbn [bind]. eexists. split; [reflexivity|].
    split; [assumption|]. repeat split; cbn; auto. destruct Hw as [HR _]. apply zlen_concat in HR. rewrite EM, EN in HR. now symmetry.
  - intros HN HC. unfold fx2_of_src, same_size2. rewrite E1, E2. replace ((m =? zlen N) && (n =? ncols N)) with false by lia. now rewrite check_debug_false.
Qed.
Theorem fx2_copy_thm a M : rep2 a M -> fx2_copy zero a = Ok a.
Proof.
  intros H. rewrite (rep2_ob _ _ H). unfold fx2_copy. cbn [dat drows dcols]. pose proof (copy_ob zero (concat M)) as E. cbn in E. now rewrite E.
Qed.
Lemma zeros_rep2 a M : rep2 a M -> rep2 (mkarr2 (zlen M) (ncols M) (mkarr (zeros zero (zlen (concat M))) (zlen (zeros zero (zlen (concat M)))))) (const_mat (zlen M) (ncols M) zero).
Proof.
  intros H. pose proof (rep2_shp _ _ H) as HS. pose proof (rep2_concat _ _ H) as HC. rewrite HC. assert (0 <= zlen M * ncols M) by (rewrite <- HC; apply zlen_nonneg). rewrite zeros_len by assumption. now apply rep2_const.
Qed.
Theorem fx2_move_thm a M : rep2 a M -> exists s, fx2_move zero a = Ok (a, s) /\ rep2 s (const_mat (zlen M) (ncols M) zero).
Proof.
  intros H. pose proof (zeros_rep2 _ _ H) as HZ. rewrite (rep2_ob _ _ H). unfold fx2_move. cbn [dat drows dcols]. pose proof (move_ob zero (concat M)) as E. cbn in E. rewrite E. cbn [bind fst snd]. eexists. split; [reflexivity|]. exact HZ.
Qed.
Theorem fx2_assign_same_thm a s M N : rep2 a M -> rep2 s N -> zlen M = zlen N -> ncols M = ncols N -> fx2_assign_same s a = MOk s.
Proof.
  intros H H' E1 E2. pose proof (rep2_concat _ _ H). pose proof (rep2_concat _ _ H'). rewrite (rep2_ob _ _ H), (rep2_ob _ _ H'). unfold fx2_assign_same. cbn [dat drows dcols].
  pose proof (assign_same_ob (concat N) (concat M)) as E. cbn in E. rewrite E by nia. cbn. now rewrite E1, E2.
Qed.
Theorem fx2_move_assign_thm a s M N : rep2 a M -> rep2 s N -> zlen M = zlen N -> ncols M = ncols N ->
  exists s', fx2_move_assign zero a s = Ok (s, s') /\ rep2 s' (const_mat (zlen N) (ncols N) zero).
Proof.
  intros H H' E1 E2. pose proof (rep2_concat _ _ H). pose proof (rep2_concat _ _ H'). pose proof (zeros_rep2 _ _ H') as HZ. rewrite (rep2_ob _ _ H), (rep2_ob _ _ H'). unfold fx2_move_assign. cbn [dat drows dcols].
  pose proof (move_assign_ob zero (concat N) (concat M)) as E. cbn in E. rewrite E by nia. cbn [bind fst snd]. rewrite E1, E2. eexists. split; [reflexivity|]. exact HZ.
Qed.
Theorem fx2_assign_list_thm c a M L : rep2 a M -> zlen M * ncols M <= LONG_MAX -> let R := matrix_of L in
  (good_list L = true /\ zlen R = zlen M /\ ncols R = ncols M -> exists a', fx2_assign_list zero c L a = MOk a' /\ rep2 a' R) /\
  (~ (good_list L = true /\ zlen R = zlen M /\ ncols R = ncols M) -> checked c = true -> fx2_assign_list zero c L a = MFail (report c) a).
Proof.
  intros H HM R. pose proof (rep2_shp _ _ H) as HS. destruct (fx2_of_list_thm c _ _ L HS HM) as (T1 & T2). fold R in T1, T2. pose proof H as (_ & E1 & E2 & _). unfold fx2_assign_list. rewrite E1, E2. split.
  - intros G. destruct (T1 G) as (t & -> & Ht). destruct G as (_ & G1 & G2). exists t. split; [|assumption]. eapply fx2_assign_same_thm; eauto.
  - intros G HC. now rewrite T2.
Qed.
Theorem fx2_assign_thm c a M A N : rep2 a M -> zlen M * ncols M <= LONG_MAX -> produces2 A N ->
  (zlen N = zlen M -> ncols N = ncols M -> exists a', fx2_assign c A a = MOk a' /\ rep2 a' N) /\
  (~ (zlen N = zlen M /\ ncols N = ncols M) -> checked c = true -> fx2_assign c A a = MFail (report c) a).
Proof.
  intros H HM HA. pose proof HA as (Hw & E1 & E2 & _). pose proof (rep2_concat _ _ H) as HC. split.
  - intros EM EN. rewrite (rep2_ob _ _ H). unfold fx2_assign, arr2_assign, arr2_assign_rd, same_size2. cbn [dat drows dcols buf an]. rewrite E1, E2, EM, EN, !Z.eqb_refl, check_debug_true. cbn [bind andb].
    pose proof (copy2_ok zero A N (zlen M) (ncols M) (concat M)) as G. specialize (G HA HC HM ltac:(now rewrite EM, EN) (eq_sym EM) (eq_sym EN)). unfold copy2 in G. rewrite E1, E2, EM, EN in G.
    unfold for_ at 1 in G. eapply mfor_of_for2 in G; [|intros i s r; apply mfor_of_for].
    match goal with |- context [mbind ?x _ _] => replace x with (MOk (concat N)) by (symmetry; exact G) end.
    cbn [mbind]. eexists. split; [reflexivity|]. split; [assumption|]. repeat split; cbn; auto. destruct Hw as [HR _]. apply zlen_concat in HR. rewrite HC, HR. lia.
  - intros HN Hck. unfold fx2_assign, arr2_assign, arr2_assign_rd, same_size2. pose proof H as (_ & F1 & F2 & _). rewrite E1, E2, F1, F2. replace ((zlen M =? zlen N) && (ncols M =? ncols N)) with false by lia. now rewrite check_debug_false.
Qed.
End P.
Section Q.
Context {V : Type} (zero : V).
Implicit Types (l m b : list V) (c : cfg) (A : src1 V) (a : arr V).
Lemma rep_ob a l : rep a l -> a = mkarr l (zlen l).
Proof. intros [E1 E2]. destruct a as [b k]. cbn in *. now subst. Qed.
Theorem fx_assign_thm c a l A m : rep a l -> produces A m -> (forall i, sun A i = oget m i) ->
  (zlen m = zlen l -> exists a', fx_assign c A a = MOk a' /\ rep a' m) /\
  (zlen m <> zlen l -> checked c = true -> fx_assign c A a = MFail (report c) a) /\
  (zlen m < zlen l -> checked c = false -> exists a', fx_assign c A a = MOk a' /\ rep a' (m ++ skipn (length m) l)) /\
  (zlen l < zlen m -> checked c = false -> fx_assign c A a = MUB).
Proof.
  intros H HA HU. rewrite (rep_ob _ _ H), (assign_ob c A m l HA HU). unfold gate, over. repeat split.
  - intros E. rewrite E, Z.eqb_refl, Z.leb_refl. cbn. eexists. split; [reflexivity|]. rewrite skipn_all2 by (unfold zlen in *; lia). now rewrite app_nil_r.
  - intros E HC. replace (zlen l =? zlen m) with false by lia. now rewrite HC.
  - intros E HC. rewrite HC, orb_true_r. replace (zlen m <=? zlen l) with true by lia. cbn. eexists. split; [reflexivity|]. now split.
  - intros E HC. rewrite HC, orb_true_r. now replace (zlen m <=? zlen l) with false by lia.
Qed.
Theorem fx_move_thm a l : rep a l -> exists a' s, fx_move zero a = Ok (a', s) /\ rep a' l /\ rep s (repeat zero (length l)).
Proof.
  intros H. rewrite (rep_ob _ _ H). pose proof (move_ob zero l) as E. cbn in E. rewrite E. do 2 eexists. split; [reflexivity|]. split; [now split|]. now rewrite zeros_length.
Qed.
Theorem fx_move_assign_thm a l s m : rep a l -> rep s m -> zlen l = zlen m ->
  exists a' s', fx_move_assign zero a s = Ok (a', s') /\ rep a' m /\ rep s' (repeat zero (length m)).
Proof.
  intros H H' EL. rewrite (rep_ob _ _ H), (rep_ob _ _ H'). pose proof (move_assign_ob zero m l EL) as E. cbn in E. rewrite E. do 2 eexists. split; [reflexivity|]. split; [now split|]. now rewrite zeros_length.
Qed.
Theorem fx_swap_thm a l s m : rep a l -> rep s m -> zlen l = zlen m ->
  exists a' s', fx_swap zero a s = Ok (a', s') /\ rep a' m /\ rep s' l.
Proof.
  intros H H' EL. rewrite (rep_ob _ _ H), (rep_ob _ _ H'). pose proof (swap_ob zero m l EL) as E. cbn in E. rewrite E. do 2 eexists. split; [reflexivity|]. now split.
Qed.
End Q.
