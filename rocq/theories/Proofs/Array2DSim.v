(** Every two-dimensional array function, on every input, against the matrix operations of Matrix2Spec.v. *)
From Coq Require Import Sorting.Sorted.
From Verif Require Import Base.Outcome Base.ZList Model.IntModel Model.ScalarOps Model.Index Model.Slice Model.Array1D Model.Array2D Model.Store1D.
From Verif Require Import Spec.ArraySpec Spec.SliceSpec Spec.Store1DSpec Spec.MatrixSpec Spec.Matrix2Spec.
From Verif Require Import Proofs.ScalarProofs Proofs.Array1DProofs Proofs.SliceProofs Proofs.ViewProofs Proofs.Store1DProofs Proofs.MatrixProofs Proofs.Array2DProofs.
Ltac Zify.zify_post_hook ::= Z.div_mod_to_equations.

Lemma zlen_repeat_nat {X} (x : X) k : zlen (repeat x k) = Z.of_nat k.
Proof. unfold zlen. now rewrite repeat_length. Qed.
Lemma znth_repeat_nat {X} (x : X) k i : 0 <= i < Z.of_nat k -> znth (repeat x k) i = Some x.
Proof. intros H. rewrite <- (Nat2Z.id k). now apply znth_repeat. Qed.
Lemma zlen_fit {X} (d : X) n l : 0 <= n -> zlen (fit d n l) = n.
Proof. intros H. unfold fit. rewrite zlen_app, zlen_repeat_nat. unfold zlen. rewrite firstn_length. lia. Qed.
Lemma znth_fit {X} (d : X) n l i : 0 <= i < n -> znth (fit d n l) i = if i <? zlen l then znth l i else Some d.
Proof.
  intros H. unfold fit. assert (zlen (firstn (Z.to_nat n) l) = Z.min n (zlen l)) as LF by (unfold zlen; rewrite firstn_length; lia).
  destruct (Z.ltb_spec i (zlen l)).
  - rewrite znth_app_l by lia. rewrite znth_firstn by lia. now replace (i <? n) with true by lia.
  - rewrite znth_app_r by lia. apply znth_repeat_nat. unfold zlen in *. lia.
Qed.
Lemma rect_const {V} (x : V) m n : 0 <= n -> rect n (const_mat m n x).
Proof. intros H. apply Forall_forall. intros r Hr. apply repeat_spec in Hr as ->. apply zlen_repeat. lia. Qed.
Lemma mget_const {V} (x : V) m n i j : 0 <= i < m -> 0 <= j < n -> mget (const_mat m n x) i j = Some x.
Proof. intros Hi Hj. unfold mget, const_mat. rewrite znth_repeat by assumption. now apply znth_repeat. Qed.

Section P.
Context {V : Type} (zero : V) (c : cfg).
Hypothesis Hc : cfg_ok c.
Implicit Types (a : arr2 V) (M N : list (list V)) (A : src2 V) (b : list V).

Definition small M : Prop := zlen M * ncols M <= amax c.
Definition osim2 (m : outcome (arr2 V)) (n : outcome (list (list V))) : Prop :=
  match n with
  | Ok M => exists a, m = Ok a /\ rep2 a M /\ small M
  | Fail f => m = Fail f
  | UB => m = UB
  end.
Lemma amax_long : 0 <= amax c <= LONG_MAX. Proof. exact Hc. Qed.

Lemma mul_long z : 0 <= z <= LONG_MAX -> in_long z = true.
Proof. intros. apply in_long_true. unfold LONG_MIN. lia. Qed.
Lemma arr2_new_big m n : 0 <= m * n <= LONG_MAX -> amax c < m * n -> arr2_new zero c m n = Fail BadAlloc.
Proof.
  intros H1 H2. pose proof amax_long. unfold arr2_new. rewrite lmul_ok by (unfold LONG_MIN; lia). cbn [bind].
  now rewrite arr_new_big by lia.
Qed.
Lemma room2_sim m n k R : shape_ok m n = true ->
  (m * n <= amax c -> exists a, (tmp <- arr2_new zero c m n ;; k tmp) = Ok a /\ rep2 a R /\ zlen R * ncols R = m * n) ->
  osim2 (tmp <- arr2_new zero c m n ;; k tmp) (room2 c m n (Ok R)).
Proof.
  intros Hs Hk. pose proof amax_long. apply shape_ok_true in Hs as (H1 & H2 & H3).
  assert (0 <= m * n) by nia. unfold room2, room, in_long.
  destruct (Z.leb_spec (m * n) LONG_MAX).
  - replace ((LONG_MIN <=? m * n) && true) with true by (unfold LONG_MIN; lia).
    destruct (Z.ltb_spec (amax c) (m * n)).
    + simpl. now rewrite arr2_new_big by lia.
    + destruct Hk as (a & E & Hr & HS); [lia|]. unfold osim2, small. exists a. rewrite HS. auto.
  - replace ((LONG_MIN <=? m * n) && false) with false by lia. unfold osim2, arr2_new, lmul. rewrite lret_ub by lia. reflexivity.
Qed.

Lemma rep2_const m n (x : V) : shape_ok m n = true -> rep2 (mkarr2 m n (mkarr (repeat x (Z.to_nat (m * n))) (m * n))) (const_mat m n x).
Proof.
  intros Hs. pose proof Hs as (H1 & H2 & H3)%shape_ok_true. apply rep2_intro; auto.
  - now apply rect_const.
  - unfold const_mat. apply zlen_repeat. lia.
  - apply zlen_repeat. nia.
  - intros i j Hi Hj. rewrite mget_const by assumption. now apply fresh_get.
Qed.
Lemma size_const m n (x : V) : shape_ok m n = true -> zlen (const_mat m n x) * ncols (const_mat m n x) = m * n.
Proof. intros Hs. destruct (rep2_const m n x Hs) as (_ & <- & <- & _). reflexivity. Qed.
Lemma size_of m n b k M : rep2 (mkarr2 m n (mkarr b k)) M -> zlen M * ncols M = m * n.
Proof. intros (_ & <- & <- & _). reflexivity. Qed.

Lemma arr2_fill_ok a M x : rep2 a M -> exists a', arr2_set_all x a = Ok a' /\ rep2 a' (map (map (fun _ => x)) M).
Proof.
  intros (Hw & H1 & H2 & H3). unfold arr2_set_all. destruct (arr_set_all_ok _ _ x H3) as (d & -> & Hd). cbn [bind].
  eexists. split; [reflexivity|].
  assert (ncols (map (map (fun _ => x)) M) = ncols M) as En by (destruct M; [reflexivity|cbn; now rewrite zlen_map]).
  split; [|split; [|split]]; simpl; rewrite ?En, ?zlen_map; auto.
  - destruct Hw as [HR HN]. split; rewrite ?En.
    + apply (rect_map (ncols M)); auto. intros r Hr. now rewrite zlen_map.
    + intros Hne. apply HN. intros ->. now apply Hne.
  - assert (repeat x (length (concat M)) = concat (map (map (fun _ => x)) M)) as <-; [|assumption].
    rewrite <- concat_map. clear. induction (concat M) as [|y l IH]; [reflexivity|]. cbn. now rewrite IH.
Qed.

Lemma sim2_new_gen m n x k : (forall a, m * n <= amax c -> rep2 a (const_mat m n zero) -> shape_ok m n = true ->
    exists a', k a = Ok a' /\ rep2 a' (const_mat m n x)) ->
  covered c (spec_new2 c m n x) -> osim2 (a <- arr2_new zero c m n ;; k a) (spec_new2 c m n x).
Proof.
  intros Hk Hcov. pose proof amax_long. unfold spec_new2, guard, room in *. 
  destruct (in_long (m * n)) eqn:E; cbn [negb] in *.
  - apply in_long_spec in E. destruct (Z.leb_spec 0 (m * n)).
    + destruct (Z.ltb_spec (amax c) (m * n)).
      * simpl. now rewrite arr2_new_big by lia.
      * destruct (shape_ok m n) eqn:Hs.
        -- rewrite arr2_new_ok by (auto; lia). cbn [bind]. destruct (Hk _ ltac:(lia) (rep2_const m n zero Hs) eq_refl) as (a' & -> & Hr').
           exists a'. split; [reflexivity|]. split; [assumption|]. unfold small. rewrite size_const by assumption. lia.
        -- assert (checked c = true) as Hck by (eapply covered_checked; eauto).
           unfold osim2. unfold arr2_new. rewrite lmul_ok by lia. cbn [bind]. rewrite arr_new_ok by lia. cbn [bind].
           rewrite shape_ok_spec in Hs.
           destruct (0 <=? m); [|now rewrite check_debug_false]. rewrite check_debug_true. cbn [bind].
           destruct (0 <=? n); [|now rewrite check_debug_false]. rewrite check_debug_true. cbn [bind].
           cbn in Hs. rewrite Hs. now rewrite check_debug_false.
    + assert (checked c = true) as Hck by (eapply covered_checked; eauto).
      unfold osim2. unfold arr2_new. rewrite lmul_ok by lia. cbn [bind]. now rewrite arr_new_neg by (auto; lia).
  - unfold osim2, arr2_new, lmul, lret. rewrite E. reflexivity.
Qed.
Lemma sim2_new m n : covered c (spec_new2 c m n zero) -> osim2 (arr2_new zero c m n) (spec_new2 c m n zero).
Proof.
  intros Hcov. pose proof (sim2_new_gen m n zero (fun a => Ok a)) as H.
  replace (arr2_new zero c m n) with (a <- arr2_new zero c m n ;; Ok a) by (destruct (arr2_new zero c m n); reflexivity).
  apply H; auto. intros a _ Hr _. eauto.
Qed.
Lemma map_const_mat (x y : V) m n : map (map (fun _ => y)) (const_mat m n x) = const_mat m n y.
Proof.
  unfold const_mat. assert (forall {X Y} (f : X -> Y) z k, map f (repeat z k) = repeat (f z) k) as HR.
  { intros X Y f z k. induction k; simpl; congruence. }
  now rewrite !HR.
Qed.
Lemma sim2_new_fill m n x : covered c (spec_new2 c m n x) -> osim2 (arr2_new_fill zero c m n x) (spec_new2 c m n x).
Proof.
  intros Hcov. apply sim2_new_gen; auto. intros a _ Hr _.
  destruct (arr2_fill_ok a _ x Hr) as (a' & E & Hr'). rewrite map_const_mat in Hr'. unfold arr2_set_all in E. eauto.
Qed.

(** Nested lists *)
Lemma copy_list_row_ok m n l : m * n <= LONG_MAX -> forall r cc b, zlen b = m * n -> 0 <= r < m -> 0 <= cc -> cc + zlen l <= n ->
  exists b', copy_list_row n r cc l b = Ok b' /\ zlen b' = m * n /\
    forall i j, 0 <= i < m -> 0 <= j < n -> get2 n b' i j =
      if (i =? r) && (cc <=? j) && (j <? cc + zlen l) then znth l (j - cc) else get2 n b i j.
Proof.
  intros HL. induction l as [|x l IH]; intros r cc b Hb Hr Hcc Hn.
  - exists b. split; [reflexivity|]. split; [assumption|]. intros i j Hi Hj. rewrite zlen_nil.
    now replace ((i =? r) && (cc <=? j) && (j <? cc + 0)) with false by lia.
  - rewrite zlen_cons in Hn. pose proof (zlen_nonneg l). cbn [copy_list_row]. rewrite (set2_ok m) by (auto; lia). cbn [bind].
    destruct (IH r (cc + 1) (zupd b (r * n + cc) x)) as (b' & E & L & G); try lia; [now rewrite zlen_zupd|].
    exists b'. split; [exact E|]. split; [exact L|]. intros i j Hi Hj. rewrite G by assumption.
    rewrite (get2_zupd m) by (auto; lia). rewrite zlen_cons.
    destruct ((i =? r) && (cc + 1 <=? j) && (j <? cc + 1 + zlen l)) eqn:B.
    + replace ((i =? r) && (cc <=? j) && (j <? cc + (1 + zlen l))) with true by lia.
      rewrite znth_cons_pos by lia. f_equal. lia.
    + destruct ((i =? r) && (j =? cc)) eqn:B2.
      * replace ((i =? r) && (cc <=? j) && (j <? cc + (1 + zlen l))) with true by lia.
        replace (j - cc) with 0 by lia. now rewrite znth_cons_0.
      * now replace ((i =? r) && (cc <=? j) && (j <? cc + (1 + zlen l))) with false by lia.
Qed.
Lemma copy_list2_ok m n L : m * n <= LONG_MAX -> rect n L -> forall r b, zlen b = m * n -> 0 <= r -> r + zlen L <= m ->
  exists b', copy_list2 n r L b = Ok b' /\ zlen b' = m * n /\
    forall i j, 0 <= i < m -> 0 <= j < n -> get2 n b' i j =
      if (r <=? i) && (i <? r + zlen L) then mget L (i - r) j else get2 n b i j.
Proof.
  intros HL HR. induction HR as [|l L Hl HR IH]; intros r b Hb Hr Hm.
  - exists b. split; [reflexivity|]. split; [assumption|]. intros i j Hi Hj. change (zlen (@nil (list V))) with 0.
    now replace ((r <=? i) && (i <? r + 0)) with false by lia.
  - rewrite zlen_cons in Hm. pose proof (zlen_nonneg L). cbn [copy_list2].
    destruct (copy_list_row_ok m n l HL r 0 b) as (b1 & -> & L1 & G1); auto; try lia. cbn [bind].
    destruct (IH (r + 1) b1) as (b' & E & L' & G); try lia.
    exists b'. split; [exact E|]. split; [exact L'|]. intros i j Hi Hj. rewrite G, G1 by assumption. rewrite zlen_cons. unfold mget.
    destruct ((r + 1 <=? i) && (i <? r + 1 + zlen L)) eqn:B.
    + replace ((r <=? i) && (i <? r + (1 + zlen L))) with true by lia.
      rewrite znth_cons_pos by lia. now replace (i - (r + 1)) with (i - r - 1) by lia.
    + destruct (Z.eqb_spec i r) as [->|].
      * replace ((r <=? r) && (r <? r + (1 + zlen L))) with true by lia. rewrite Z.sub_diag, znth_cons_0, Z.sub_0_r.
        now replace (true && (0 <=? j) && (j <? 0 + zlen l)) with true by lia.
      * now replace ((r <=? i) && (i <? r + (1 + zlen L))) with false by lia.
Qed.
Lemma sizes_cons (r : list V) L : 0 < zlen r -> list2_sizes (r :: L) = (zlen (r :: L), zlen r).
Proof. intros H. unfold list2_sizes. replace (zlen r =? 0) with false by lia. now rewrite andb_false_r. Qed.
Lemma valid_cons (r : list V) L : 0 < zlen r -> valid_list2 (r :: L) = forallb (fun q => zlen q =? zlen r) (r :: L).
Proof. intros H. unfold valid_list2. replace (zlen r =? 0) with false by lia. now rewrite andb_false_r. Qed.
Lemma good_cons (r : list V) L : 0 < zlen r -> good_list (r :: L) = forallb (fun q => zlen q =? zlen r) (r :: L).
Proof. intros H. destruct r as [|x r]; [discriminate|]. unfold good_list. now replace (0 <? zlen (x :: r)) with true by lia. Qed.
Lemma spec_cons (r : list V) L : 0 < zlen r ->
  spec_list2 c (r :: L) = room2 c (zlen (r :: L)) (zlen r) (guard c (good_list (r :: L)) (Ok (r :: L))).
Proof. intros H. destruct r as [|x r]; [discriminate|]. reflexivity. Qed.
Lemma sim2_list L : covered c (spec_list2 c L) -> osim2 (arr2_of_list zero c L) (spec_list2 c L).
Proof.
  intros Hcov. pose proof amax_long.
  assert (rep2 (@arr2_empty V) []) as He by (split; [apply wfm_nil|repeat split]).
  assert (small []) as Hs0 by (unfold small; cbn; lia).
  assert (arr2_new zero c 0 0 = Ok arr2_empty) as E0 by (rewrite arr2_new_ok by (auto; lia); reflexivity).
  unfold arr2_of_list. destruct L as [|r L]; [|destruct r as [|x r]; [destruct L as [|q L]|]].
  - cbn [list2_sizes]. rewrite E0. cbn [bind]. cbn [valid_list2]. rewrite check_debug_true. cbn. eauto.
  - cbn [list2_sizes]. change (zlen [[]] =? 1) with true. cbn [andb]. change (zlen (@nil V) =? 0) with true. cbn [andb].
    rewrite E0. cbn [bind valid_list2]. change (zlen [[]] =? 1) with true. change (zlen (@nil V) =? 0) with true. cbn [andb].
    rewrite check_debug_true. cbn. eauto.
  - (* no columns but several rows *)
    assert (1 < zlen ([] :: q :: L)) as HL by (rewrite !zlen_cons; pose proof (zlen_nonneg L); lia).
    assert (spec_list2 c ([] :: q :: L) = Fail (report c)) as Es.
    { unfold spec_list2, room2, room, guard. change (zlen (@nil V)) with 0. rewrite Z.mul_0_r. change (in_long 0) with true. cbn iota.
      replace (amax c <? 0) with false by lia. reflexivity. }
    rewrite Es in *. assert (checked c = true) as Hck by (eapply covered_checked; eauto). unfold osim2.
    cbn [list2_sizes]. replace (zlen ([] :: q :: L) =? 1) with false by lia. cbn [andb]. change (zlen (@nil V)) with 0.
    unfold arr2_new, lmul. rewrite Z.mul_0_r.
    change (lret 0) with (Ok 0). cbn [bind]. rewrite arr_new_ok by lia. cbn [bind].
    replace (0 <=? zlen ([] :: q :: L)) with true by lia. change (0 <=? 0) with true. rewrite !check_debug_true. cbn [bind].
    unfold semi_valid. replace (zlen ([] :: q :: L) =? 0) with false by lia. cbn. now rewrite check_debug_false.
  - assert (0 < zlen (x :: r)) as Hr by (rewrite zlen_cons; pose proof (zlen_nonneg r); lia).
    rewrite (spec_cons _ _ Hr) in *. rewrite (sizes_cons _ _ Hr), (valid_cons _ _ Hr). rewrite (good_cons _ _ Hr) in *.
    assert (0 < zlen ((x :: r) :: L)) as HL0 by (rewrite zlen_cons; pose proof (zlen_nonneg L); lia).
    assert (forallb (fun q => zlen q =? zlen (x :: r)) ((x :: r) :: L) = true -> rect (zlen (x :: r)) ((x :: r) :: L)) as HR.
    { intros EG. apply Forall_forall. intros q Hq. rewrite forallb_forall in EG. apply EG in Hq. lia. }
    revert HL0 HR Hr Hcov. generalize (forallb (fun q => zlen q =? zlen (x :: r)) ((x :: r) :: L)) as g.
    generalize ((x :: r) :: L) as L0. generalize (x :: r) as r0. clear x r L He Hs0 E0. intros r L0 g HL0 HR Hr Hcov.
    assert (shape_ok (zlen L0) (zlen r) = true) as Hs by (apply shape_ok_true; lia).
    unfold guard in *. destruct g.
    + specialize (HR eq_refl). apply room2_sim; [assumption|]. intros HS. rewrite arr2_new_ok by (auto; lia). cbn [bind drows dcols dat buf an].
      rewrite check_debug_true. cbn [bind].
      destruct (copy_list2_ok (zlen L0) (zlen r) L0) with (r := 0) (b := repeat zero (Z.to_nat (zlen L0 * zlen r)))
        as (b & -> & Lb & G); auto; try lia; [apply zlen_repeat; nia|]. cbn [bind].
      eexists. split; [reflexivity|].
      match goal with |- rep2 ?x ?y /\ _ => assert (rep2 x y) as HH end; [|split; [exact HH|exact (size_of _ _ _ _ _ HH)]].
      apply rep2_intro; auto. intros i j Hi Hj. rewrite G by assumption.
      rewrite Z.sub_0_r. now replace ((0 <=? i) && (i <? 0 + zlen L0)) with true by lia.
    + unfold room2, room in *. unfold in_long in *.
      destruct (Z.leb_spec (zlen L0 * zlen r) LONG_MAX).
      * replace ((LONG_MIN <=? zlen L0 * zlen r) && true) with true in * by (unfold LONG_MIN; lia).
        destruct (Z.ltb_spec (amax c) (zlen L0 * zlen r)).
        -- unfold osim2. now rewrite arr2_new_big by lia.
        -- unfold osim2. rewrite arr2_new_ok by (auto; lia). cbn [bind]. rewrite check_debug_false; [reflexivity|].
           eapply covered_checked; eauto.
      * replace ((LONG_MIN <=? zlen L0 * zlen r) && false) with false in * by lia.
        unfold osim2, arr2_new, lmul. rewrite lret_ub by lia. reflexivity.
Qed.

(** Copies *)
Lemma sim2_src A N : produces2 A N -> osim2 (arr2_of_src zero c A) (room2 c (zlen N) (ncols N) (Ok N)).
Proof.
  intros HA. pose proof HA as (Hw & E1 & E2 & _). pose proof amax_long. unfold arr2_of_src. rewrite E1, E2.
  assert (shape_ok (zlen N) (ncols N) = true) as Hs.
  { apply shape_ok_true. split; [apply zlen_nonneg|]. split; [apply ncols_nonneg|]. now apply wfm_zero. }
  apply room2_sim; auto. intros HS. rewrite arr2_new_ok by auto. cbn [bind drows dcols dat buf an].
  rewrite (copy2_ok zero A N (zlen N) (ncols N)); auto; try lia.
  - cbn [bind]. eexists. split; [reflexivity|]. split; [|reflexivity]. split; [assumption|]. repeat split. simpl.
    symmetry. apply zlen_concat. now apply wfm_rect.
  - apply zlen_repeat. pose proof (zlen_nonneg N). pose proof (ncols_nonneg N). nia.
Qed.
Lemma sim2_arr s N : rep2 s N -> small N -> osim2 (arr2_of_arr zero c s) (Ok N).
Proof.
  intros Hr HS. pose proof Hr as (Hw & E1 & E2 & E3). unfold osim2, arr2_of_arr. rewrite E1, E2.
  rewrite arr2_new_ok; auto; [|now apply (rep2_shape s)]. cbn [bind drows dcols dat buf an].
  assert (zlen (concat N) = zlen N * ncols N) as EC by (apply zlen_concat; now apply wfm_rect).
  rewrite (copy_ok zero _ (concat N)); [| |].
  - cbn [bind]. eexists. split; [reflexivity|]. split; [|assumption]. split; [assumption|]. repeat split. now symmetry.
  - now apply produces_arr.
  - rewrite EC. apply zlen_repeat. pose proof (zlen_nonneg N). pose proof (ncols_nonneg N). nia.
Qed.
Lemma sim2_copy s N : rep2 s N -> small N -> osim2 (arr2_copy zero c s) (Ok N).
Proof.
  intros Hr HS. pose proof Hr as (Hw & E1 & E2 & E3). unfold osim2, arr2_copy.
  destruct (arr_of_src_ok zero c (src_of_arr (dat s)) (concat N)) as (d & -> & Hd).
  - now apply produces_arr.
  - rewrite (zlen_concat (ncols N)) by now apply wfm_rect. exact HS.
  - cbn [bind]. eexists. split; [reflexivity|]. split; [|assumption]. split; [assumption|]. simpl. auto.
Qed.

Section Ops.
Variables (a : arr2 V) (M : list (list V)).
Hypothesis Hr : rep2 a M.
Hypothesis HM : small M.
Let Hrect : rect (ncols M) M. Proof. apply wfm_rect, Hr. Qed.
Let Hshape := rep2_shape a M Hr.
Let HPA : produces2 (src_of_arr2 a) M := produces2_arr zero c Hc a M Hr HM.
Let Hrows : drows a = zlen M. Proof. apply Hr. Qed.
Let Hcols : dcols a = ncols M. Proof. apply Hr. Qed.

Lemma sim2_set_all x : osim2 (arr2_set_all x a) (Ok (map (map (fun _ => x)) M)).
Proof.
  destruct (arr2_fill_ok a M x Hr) as (a' & E & Hr'). exists a'. split; [assumption|]. split; [assumption|]. unfold small in *.
  rewrite zlen_map. assert (ncols (map (map (fun _ => x)) M) = ncols M) as -> by (destruct M; [reflexivity|cbn; now rewrite zlen_map]).
  assumption.
Qed.

Lemma rep2_chunks m n : shape_ok m n = true -> m * n = zlen M * ncols M ->
  rep2 (mkarr2 m n (dat a)) (chunks m n (concat M)).
Proof.
  intros Hs HE. pose proof Hs as (H1 & H2 & H3)%shape_ok_true. pose proof Hr as (_ & _ & _ & [Eb En]).
  assert (zlen (concat M) = m * n) as EC by (rewrite HE; now apply zlen_concat).
  destruct (dat a) as [b k]. simpl in Eb, En. subst b k. rewrite EC.
  apply rep2_intro; auto.
  - apply Forall_forall. intros r Hin. apply in_map_iff in Hin as (i & <- & Hi). apply in_zseq in Hi.
    assert (i * n + n <= m * n) by nia. assert (0 <= i * n) by nia.
    rewrite zlen_firstn; [reflexivity|]. rewrite zlen_skipn by lia. lia.
  - unfold chunks. rewrite zlen_map, zlen_zseq. lia.
  - intros i j Hi Hj. unfold mget, chunks. rewrite znth_map_zseq by lia. assert (0 <= i * n) by nia. rewrite Z.add_0_l.
    rewrite znth_firstn by lia. replace (j <? n) with true by lia. rewrite znth_skipn by lia. unfold get2. f_equal. lia.
Qed.

Lemma sim2_resize m n pr : is_long m -> is_long n -> covered c (spec_resize2 zero c M m n pr) ->
  osim2 (arr2_resize zero c m n pr a) (spec_resize2 zero c M m n pr).
Proof.
  intros Lm Ln Hcov. pose proof amax_long. unfold spec_resize2, guard in *.
  destruct (shape_ok m n) eqn:Hs.
  - pose proof Hs as (H1 & H2 & H3)%shape_ok_true. unfold arr2_resize.
    replace (0 <=? m) with true by lia. replace (0 <=? n) with true by lia. rewrite semi_valid_true by assumption.
    rewrite !check_debug_true. cbn [bind]. rewrite Hrows, Hcols.
    destruct ((m =? zlen M) && (n =? ncols M)) eqn:EQ.
    { destruct pr; exists a; auto. }
    destruct pr.
    + apply room2_sim; auto. intros HS. rewrite arr2_new_ok by auto. cbn [bind drows dcols dat buf an].
      set (b0 := repeat zero _). assert (zlen b0 = m * n) as L0 by (apply zlen_repeat; nia).
      pose proof (zlen_nonneg M). pose proof (ncols_nonneg M).
      assert (mins (zlen M) m = Z.min (zlen M) m) as -> by (unfold mins; destruct (Z.ltb_spec (zlen M) m); lia).
      assert (mins (ncols M) n = Z.min (ncols M) n) as -> by (unfold mins; destruct (Z.ltb_spec (ncols M) n); lia).
      destruct (rect_fill m n (Z.min (zlen M) m) (Z.min (ncols M) n) 0 0 (mval zero M)
        (fun i j b => v <- un2 a i j ;; set2 n b i j v) b0) as (b & E & L & G); auto; try lia.
      { intros i j s Hi Hj. rewrite (un2_ok zero c Hc a M Hr HM) by lia. cbn [bind]. now rewrite !Z.add_0_r. }
      rewrite E. cbn [bind]. eexists. split; [reflexivity|].
      match goal with |- rep2 ?x ?y /\ _ => assert (rep2 x y) as HR end; [|split; [exact HR|exact (size_of _ _ _ _ _ HR)]].
      apply rep2_intro; auto.
      * apply Forall_forall. intros r Hin. unfold fit at 1 in Hin. apply in_app_iff in Hin as [Hin|Hin].
        -- assert (In r (map (fit zero n) M)) as Hin'. { rewrite <- (firstn_skipn (Z.to_nat m)). apply in_app_iff. now left. }
           apply in_map_iff in Hin' as (q & <- & _). now apply zlen_fit.
        -- apply repeat_spec in Hin as ->. apply zlen_repeat. lia.
      * now apply zlen_fit.
      * intros i j Hi Hj. rewrite G by assumption. unfold mget. rewrite znth_fit by assumption. rewrite zlen_map.
        destruct (Z.ltb_spec i (zlen M)).
        -- rewrite znth_map. destruct (znth_some M i) as [r Er]; [lia|]. rewrite Er. cbn [option_map].
           pose proof (rect_nth _ _ _ _ Hrect Er) as Lr. rewrite znth_fit by assumption. rewrite Lr.
           destruct (Z.ltb_spec j (ncols M)).
           ++ replace ((0 <=? i) && (i <? 0 + Z.min (zlen M) m) && (0 <=? j) && (j <? 0 + Z.min (ncols M) n)) with true by lia.
              rewrite !Z.sub_0_r. rewrite (mval_some zero (ncols M)) by (auto; lia). unfold mget. now rewrite Er.
           ++ replace ((0 <=? i) && (i <? 0 + Z.min (zlen M) m) && (0 <=? j) && (j <? 0 + Z.min (ncols M) n)) with false by lia.
              now apply fresh_get.
        -- replace ((0 <=? i) && (i <? 0 + Z.min (zlen M) m) && (0 <=? j) && (j <? 0 + Z.min (ncols M) n)) with false by lia.
           rewrite znth_repeat by lia. now apply fresh_get.
    + rewrite (lmul_ok (zlen M) (ncols M)) by (unfold small, LONG_MIN in *; pose proof (zlen_nonneg M); pose proof (ncols_nonneg M); nia).
      unfold lmul, lret. destruct (Z.eqb_spec (m * n) (zlen M * ncols M)) as [E|E].
      * rewrite mul_long; [|unfold small in HM; nia]. cbn [bind]. rewrite E, Z.eqb_refl.
        eexists. split; [reflexivity|]. pose proof (rep2_chunks m n Hs E) as HR. split; [exact HR|].
        unfold small. destruct HR as (_ & E1 & E2 & _). simpl in E1, E2. rewrite <- E1, <- E2, E. exact HM.
      * destruct (in_long (m * n)) eqn:EL; cbn [bind].
        -- replace (m * n =? zlen M * ncols M) with false by lia.
           pose proof (room2_sim m n (fun x => Ok x) (const_mat m n zero) Hs) as HH.
           assert ((tmp <- arr2_new zero c m n ;; Ok tmp) = arr2_new zero c m n) as EE by (destruct (arr2_new zero c m n); reflexivity).
           cbv beta in HH. rewrite EE in HH. apply HH. intros HS. rewrite arr2_new_ok by auto. eexists. split; [reflexivity|].
           split; [now apply rep2_const|now apply size_const].
        -- unfold room2. rewrite EL. reflexivity.
  - assert (checked c = true) as Hck by (eapply covered_checked; eauto). unfold osim2, arr2_resize. rewrite shape_ok_spec in Hs.
    destruct (0 <=? m); [|now rewrite check_debug_false]. rewrite check_debug_true. cbn [bind].
    destruct (0 <=? n); [|now rewrite check_debug_false]. rewrite check_debug_true. cbn [bind].
    cbn in Hs. rewrite Hs. now rewrite check_debug_false.
Qed.

Lemma sim2_remove_rows p k : is_long p -> is_long k -> covered c (spec_remove_rows c M p k) ->
  osim2 (arr2_remove_rows zero c p k a) (spec_remove_rows c M p k).
Proof.
  intros Hp Hk Hcov. unfold spec_remove_rows, guard, in_range in *. pose proof amax_long. pose proof (zlen_nonneg M).
  destruct ((0 <? k) && (0 <=? p) && (p + k <=? zlen M)) eqn:G.
  - pose proof Hshape as (Z1 & Z2 & Z3)%shape_ok_true. destruct (dims_long _ _ Z1 Z2 Z3) as [LM _]; [unfold small in HM; lia|].
    replace ((0 <? k) && ((0 <=? p) && (p <? zlen M)) && (LONG_MAX <? p + k)) with false in * by lia.
    destruct (remove_rows_ok zero c Hc a M Hr HM p k) as (a' & E & Hr'); try lia. exists a'. split; [assumption|]. split; [assumption|].
    unfold small in *. rewrite zlen_del by lia.
    assert (ncols (del M p k) <= ncols M).
    { destruct (del M p k) as [|r D] eqn:ED; [cbn; lia|]. cbn [ncols]. 
      rewrite (rect_in (ncols M) M r); [lia|assumption|]. apply (in_del M p k). rewrite ED. now left. }
    pose proof (ncols_nonneg (del M p k)). nia.
  - assert (checked c = true) as Hck.
    { destruct ((0 <? k) && ((0 <=? p) && (p <? zlen M)) && (LONG_MAX <? p + k)); eapply covered_checked; eauto. }
    unfold arr2_remove_rows, valid_row. rewrite Hrows. replace ((-1 <? p) && (p <? zlen M)) with ((0 <=? p) && (p <? zlen M)) by lia.
    destruct (0 <? k) eqn:K; [|rewrite check_debug_false by assumption; reflexivity]. rewrite check_debug_true. cbn [bind andb] in *.
    destruct ((0 <=? p) && (p <? zlen M)) eqn:P; [|rewrite check_debug_false by assumption; reflexivity]. rewrite check_debug_true. cbn [bind andb] in *.
    unfold is_long in *. unfold ladd at 1. destruct (Z.ltb_spec LONG_MAX (p + k)).
    + rewrite lret_ub by lia. rewrite check_debug_ub by assumption. reflexivity.
    + rewrite lret_ok by lia. cbn [bind]. rewrite lsub_ok by lia. cbn [bind].
      replace ((-1 <? p + k - 1) && (p + k - 1 <? zlen M)) with false by lia. rewrite check_debug_false by assumption. reflexivity.
Qed.
Lemma sim2_remove_cols p k : is_long p -> is_long k -> covered c (spec_remove_cols c M p k) ->
  osim2 (arr2_remove_cols zero c p k a) (spec_remove_cols c M p k).
Proof.
  intros Hp Hk Hcov. unfold spec_remove_cols, guard, in_range in *. pose proof amax_long. pose proof (ncols_nonneg M).
  destruct ((0 <? k) && (0 <=? p) && (p + k <=? ncols M)) eqn:G.
  - pose proof Hshape as (Z1 & Z2 & Z3)%shape_ok_true. destruct (dims_long _ _ Z1 Z2 Z3) as [_ LM]; [unfold small in HM; lia|].
    replace ((0 <? k) && ((0 <=? p) && (p <? ncols M)) && (LONG_MAX <? p + k)) with false in * by lia.
    destruct (remove_cols_ok zero c Hc a M Hr HM p k) as (a' & E & Hr'); try lia. exists a'. split; [assumption|]. split; [assumption|].
    unfold small in *. unfold norm. destruct (ncols (map (fun r => del r p k) M) =? 0); [cbn; lia|]. rewrite zlen_map.
    assert (ncols (map (fun r => del r p k) M) <= ncols M).
    { destruct M as [|r D]; [cbn; lia|]. cbn [map ncols] in *. rewrite zlen_del; lia. }
    nia.
  - assert (checked c = true) as Hck.
    { destruct ((0 <? k) && ((0 <=? p) && (p <? ncols M)) && (LONG_MAX <? p + k)); eapply covered_checked; eauto. }
    unfold arr2_remove_cols, valid_col. rewrite Hcols. replace ((-1 <? p) && (p <? ncols M)) with ((0 <=? p) && (p <? ncols M)) by lia.
    destruct (0 <? k) eqn:K; [|rewrite check_debug_false by assumption; reflexivity]. rewrite check_debug_true. cbn [bind andb] in *.
    destruct ((0 <=? p) && (p <? ncols M)) eqn:P; [|rewrite check_debug_false by assumption; reflexivity]. rewrite check_debug_true. cbn [bind andb] in *.
    unfold is_long in *. unfold ladd at 1. destruct (Z.ltb_spec LONG_MAX (p + k)).
    + rewrite lret_ub by lia. rewrite check_debug_ub by assumption. reflexivity.
    + rewrite lret_ok by lia. cbn [bind]. rewrite lsub_ok by lia. cbn [bind].
      replace ((-1 <? p + k - 1) && (p + k - 1 <? ncols M)) with false by lia. rewrite check_debug_false by assumption. reflexivity.
Qed.
End Ops.
End P.
