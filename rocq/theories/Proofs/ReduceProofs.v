(** Reductions and searches. *)
From Coq Require Import Ring_theory Ring.
From Verif Require Import Base.Outcome Base.ZList Model.Index Model.Slice Model.Array1D Model.Array2D Model.View2D Model.Expr Model.Reduce.
From Verif Require Import Spec.ArraySpec Spec.SliceSpec Spec.MatrixSpec Spec.Matrix2Spec Spec.View2DSpec Spec.ExprSpec Spec.ReduceSpec.
From Verif Require Import Proofs.Array1DProofs Proofs.MatrixProofs Proofs.Array2DProofs Proofs.ExprProofs Proofs.ExprThms Proofs.ExprEval Proofs.ExprMore.
Ltac Zify.zify_post_hook ::= Z.div_mod_to_equations.

Lemma flat2_ok {V} (A : src2 V) M : yields2 A M -> yields (flat2 A) (mlist M).
Proof.
  intros HA. pose proof HA as (E1 & E2 & B1 & B2 & E3 & B3 & _). assert (0 <= mr M * mc M) by nia. unfold flat2, yields. cbn [ssize sun]. rewrite zlen_mlist by lia. split; [assumption|]. split; [assumption|]. intros i Hi. rewrite (yields2_lin A M i HA Hi). unfold mlist. now rewrite elt_gen by lia.
Qed.
Lemma elt_skip {V} (l : list (outcome V)) i : 0 <= i < zlen l -> skipn (Z.to_nat i) l = elt l i :: skipn (Z.to_nat (i + 1)) l.
Proof.
  intros Hi. destruct (znth_some l i Hi) as (v & Hv). unfold elt. rewrite Hv. replace (Z.to_nat (i + 1)) with (S (Z.to_nat i)) by lia.
  unfold znth in Hv. replace (i <? 0) with false in Hv by lia. clear Hi. revert Hv. generalize (Z.to_nat i). intros k. revert l. induction k as [|k IH]; intros [|x l]; cbn; try discriminate; [congruence|]. apply IH.
Qed.
(** A loop over a source is the fold over its elements. *)
Lemma loop_fold {V S} (A : src1 V) l (g : S -> V -> outcome S) : yields A l -> forall k i s, 0 <= i -> i + Z.of_nat k = zlen l ->
  for_loop k i (fun i s => x <- sun A i ;; g s x) s = foldo g s (skipn (Z.to_nat i) l).
Proof.
  intros (E & HL & HU). induction k as [|k IH]; intros i s Hi HK.
  - cbn. rewrite skipn_all2 by (unfold zlen in HK; lia). reflexivity.
  - cbn [for_loop]. rewrite elt_skip by lia. cbn [foldo]. rewrite HU by lia. destruct (elt l i); cbn [bind]; try reflexivity. destruct (g s a); cbn [bind]; try reflexivity. apply IH; lia.
Qed.
Lemma fold_ok {V} (op : V -> V -> outcome V) (A : src1 V) l d : yields A l ->
  r_fold op A d = match l with [] => Ok d | v :: l' => s <- v ;; foldo op s l' end.
Proof.
  intros HA. pose proof HA as (E & HL & HU). unfold r_fold. rewrite E. destruct l as [|v l]; [reflexivity|]. rewrite zlen_cons. pose proof (zlen_nonneg l). replace (1 + zlen l =? 0) with false by lia.
  rewrite HU by (rewrite zlen_cons; lia). unfold elt. rewrite znth_cons_0. destruct v as [s| |]; cbn [bind]; try reflexivity. unfold for_. rewrite (loop_fold A (Ok s :: l)); [reflexivity|assumption|lia|rewrite zlen_cons; lia].
Qed.
Lemma foldo_pure {V S} (g : S -> V -> S) l : forall s, foldo (fun s x => Ok (g s x)) s (map Ok l) = Ok (fold_left g l s).
Proof. induction l as [|x l IH]; intros s; [reflexivity|]. cbn. apply IH. Qed.
Lemma foldo_fail {V S} (op : S -> V -> outcome S) vs x r s t : foldo op s (map Ok vs) = Ok t -> (forall u, op t x = u -> match u with Ok _ => False | _ => True end) ->
  foldo op s (map Ok vs ++ Ok x :: r) = match op t x with Ok _ => UB | Fail f => Fail f | UB => UB end.
Proof.
  revert s. induction vs as [|v vs IH]; intros s; cbn.
  - intros [= ->] H. specialize (H _ eq_refl). destruct (op t x); cbn; [contradiction|reflexivity|reflexivity].
  - destruct (op s v); cbn; try discriminate. apply IH.
Qed.

(** ** Minimum and maximum *)
Section BEST.
Context {V : Type} (better : V -> V -> bool).
(** Invariant of the search loop after the elements before i. *)
Lemma best_step l i x k m : weak_order better -> znth l i = Some x -> first_best better (firstn (Z.to_nat i) l) k m ->
  let r := if better x m then (i, x) else (k, m) in first_best better (firstn (Z.to_nat (i + 1)) l) (fst r) (snd r).
Proof.
  intros (HI & HT & HN) Hx (H1 & H2 & H3). pose proof (znth_lt _ _ _ Hx) as Hi.
  assert (firstn (Z.to_nat (i + 1)) l = firstn (Z.to_nat i) l ++ [x]) as ->.
  { apply list_ext_znth. intros j. pose proof (zlen_nonneg l). destruct (Z.ltb_spec j 0) as [Hj|Hj]; [now rewrite !znth_neg by lia|]. rewrite znth_firstn by lia. assert (zlen (firstn (Z.to_nat i) l) = i) as HL by (unfold zlen in *; rewrite firstn_length; lia). destruct (Z.ltb_spec j i).
    - replace (j <? i + 1) with true by lia. rewrite znth_app_l by lia. rewrite znth_firstn by lia. now replace (j <? i) with true by lia.
    - rewrite znth_app_r by lia. rewrite HL. destruct (Z.eq_dec j i) as [->|].
      + intros. replace (i <? i + 1) with true by lia. rewrite Z.sub_diag, znth_cons_0. assumption.
      + intros. replace (j <? i + 1) with false by lia. rewrite znth_cons_pos by lia. now rewrite znth_nil. }
  assert (zlen (firstn (Z.to_nat i) l) = i) as HL by (unfold zlen in *; rewrite firstn_length; lia).
  destruct (better x m) eqn:E; cbn [fst snd].
  - repeat split.
    + rewrite znth_app_r by lia. rewrite HL, Z.sub_diag. apply znth_cons_0.
    + intros y Hy. apply in_app_or in Hy as [Hy|[<-|[]]]; [|apply HI]. destruct (better y x) eqn:F; [|reflexivity]. specialize (H2 y Hy). rewrite (HT y x m F E) in H2. discriminate.
    + intros j y Hj Hy. destruct (Z.ltb_spec j 0); [rewrite znth_neg in Hy by lia; discriminate|]. rewrite znth_app_l in Hy by lia. destruct (better x y) eqn:F; [reflexivity|].
      specialize (H2 y (znth_in _ _ _ Hy)). rewrite (HN x y m F H2) in E. discriminate.
  - pose proof (znth_lt _ _ _ H1). repeat split.
    + rewrite znth_app_l by lia. assumption.
    + intros y Hy. apply in_app_or in Hy as [Hy|[<-|[]]]; auto.
    + intros j y Hj Hy. rewrite znth_app_l in Hy by lia. eauto.
Qed.
Lemma first_best_one x : weak_order better -> first_best better [x] 0 x.
Proof.
  intros (HI & _). repeat split; [intros y [<-|[]]; apply HI|]. intros j y Hj Hy. rewrite znth_neg in Hy by lia. discriminate.
Qed.
Definition pick (m : Z * V) (i : Z) (x : V) := if better x (snd m) then (i, x) else m.
Lemma best_loop (A : src1 V) l : weak_order better -> yields A (map Ok l) -> forall k i m, 0 < i -> i + Z.of_nat k = zlen l -> first_best better (firstn (Z.to_nat i) l) (fst m) (snd m) ->
  exists r, for_loop k i (fun i m => x <- sun A i ;; Ok (if better x (snd m) then (i, x) else m)) m = Ok r /\
            for_loop k i (fun i s => x <- sun A i ;; Ok (if better x s then x else s)) (snd m) = Ok (snd r) /\ first_best better l (fst r) (snd r).
Proof.
  intros HW (E & HL & HU). rewrite zlen_map in HU. induction k as [|k IH]; intros i m Hi HK HB.
  - exists m. repeat split; try reflexivity; rewrite firstn_all2 in HB by (unfold zlen in HK; lia); apply HB.
  - cbn [for_loop]. destruct (znth_some l i ltac:(lia)) as (x & Hx). rewrite HU by lia. unfold elt. rewrite znth_map, Hx. cbn [option_map bind].
    pose proof (best_step l i x (fst m) (snd m) HW Hx HB) as HS. cbv zeta in HS.
    destruct (IH (i + 1) (if better x (snd m) then (i, x) else m)) as (r & E1 & E2 & E3); [lia|lia| |].
    + destruct (better x (snd m)); exact HS.
    + exists r. split; [assumption|]. split; [|assumption]. rewrite <- E2. f_equal. now destruct (better x (snd m)).
Qed.
Lemma best_ok (A : src1 V) l d e : weak_order better -> l <> [] -> yields A (map Ok l) ->
  exists i m, r_best_index better A e = Ok (i, m) /\ r_fold (fun s x => Ok (if better x s then x else s)) A d = Ok m /\ first_best better l i m.
Proof.
  intros HW HN HA. pose proof HA as (E & HL & HU). rewrite zlen_map in E. rewrite zlen_map in HU. destruct l as [|x l]; [congruence|]. rewrite zlen_cons in *. pose proof (zlen_nonneg l). unfold r_best_index, r_fold. rewrite E. replace (1 + zlen l =? 0) with false by lia.
  rewrite HU by lia. cbn [map]. unfold elt. rewrite znth_cons_0. cbn [bind]. unfold for_.
  destruct (best_loop A (x :: l) HW HA (Z.to_nat (1 + zlen l - 1)) 1 (0, x)) as ((i, m) & E1 & E2 & E3); [lia|rewrite zlen_cons; lia|now apply first_best_one|].
  exists i, m. cbn [fst snd] in *. auto.
Qed.
Lemma best_empty (A : src1 V) d e : yields A [] -> r_best_index better A e = Ok e /\ r_fold (fun s x => Ok (if better x s then x else s)) A d = Ok d.
Proof. intros (E & _). change (zlen (@nil (outcome V))) with 0 in E. unfold r_best_index, r_fold. rewrite E. auto. Qed.
(** Elements that are never better than anything (such as NaN) are ignored after the first position. *)
Lemma best_ignores (A B : src1 V) l1 l2 x y d : (forall m, better y m = false) -> yields A (map Ok (x :: l1 ++ y :: l2)) -> yields B (map Ok (x :: l1 ++ l2)) ->
  r_fold (fun s x => Ok (if better x s then x else s)) A d = r_fold (fun s x => Ok (if better x s then x else s)) B d.
Proof.
  intros Hy HA HB. rewrite (fold_ok _ A _ d HA), (fold_ok _ B _ d HB). cbn [map bind]. rewrite !foldo_pure. f_equal. rewrite !fold_left_app. cbn [fold_left]. now rewrite Hy.
Qed.
(** An element that nothing is better than, in first position, is the result. *)
Lemma best_sticks (A : src1 V) x l d : (forall y, In y l -> better y x = false) -> yields A (map Ok (x :: l)) -> r_fold (fun s x => Ok (if better x s then x else s)) A d = Ok x.
Proof.
  intros Hx HA. rewrite (fold_ok _ A _ d HA). cbn [map bind]. rewrite foldo_pure. f_equal. clear HA. induction l as [|y l IH]; [reflexivity|]. cbn [fold_left]. rewrite (Hx y (or_introl eq_refl)). apply IH. intros z Hz. apply Hx. now right.
Qed.
(** Two dimensions. *)
Lemma best2_ok (A : src2 V) m n f d : weak_order better -> 0 < m -> 0 < n -> yields2 A (mkmx m n (fun i j => Ok (f i j))) ->
  exists i j, 0 <= i < m /\ 0 <= j < n /\ r_best_index2 better A d = Ok (i, j, f i j) /\
    (forall i' j', 0 <= i' < m -> 0 <= j' < n -> better (f i' j') (f i j) = false) /\
    (forall i' j', 0 <= i' < m -> 0 <= j' < n -> before i' j' i j -> better (f i j) (f i' j') = true).
Proof.
  intros HW Hm Hn HA. pose proof HA as (E1 & E2 & B1 & B2 & E3 & B3 & HU & HLin). cbn [mr mc mel] in *. unfold r_best_index2. rewrite E1, E2, E3. replace (m * n =? 0) with false by nia. rewrite HU by lia. cbn [bind].
  set (l := map (fun p => f (p / n) (p mod n)) (zseq 0 (Z.to_nat (m * n)))). assert (zlen l = m * n) as HL by (unfold l; rewrite zlen_map, zlen_zseq; nia).
  assert (forall p, 0 <= p < m * n -> znth l p = Some (f (p / n) (p mod n))) as HG by (intros p Hp; unfold l; now rewrite znth_map_zseq by lia).
  rewrite (for_nest m n _ (fun k r => x <- Ok (f (k / n) (k mod n)) ;; Ok (if better x (snd r) then (k / n, k mod n, x) else r))); try lia.
  2:{ intros i j s Hi Hj. rewrite HU by lia. rewrite Z.div_add_l, Z.div_small, Z.add_0_r by lia. now replace ((i * n + j) mod n) with j by (rewrite Z.add_comm, Z.mod_add, Z.mod_small; lia). }
  destruct (for_inv (fun i s => exists k, 0 <= k < m * n /\ s = (k / n, k mod n, f (k / n) (k mod n)) /\ (0 < i -> first_best better (firstn (Z.to_nat i) l) k (f (k / n) (k mod n))) /\ (i = 0 -> k = 0)) 0 (m * n)
    (fun k r => x <- Ok (f (k / n) (k mod n)) ;; Ok (if better x (snd r) then (k / n, k mod n, x) else r)) (0, 0, f 0 0)) as (r & -> & k & Hk & -> & HB & _).
  - nia.
  - exists 0. rewrite Z.div_0_l, Z.mod_0_l by lia. split; [nia|]. split; [reflexivity|]. split; [lia|reflexivity].
  - intros p s Hp (k & Hk & -> & HB & HZ). cbn [bind snd]. eexists. split; [reflexivity|].
    destruct (Z.eq_dec p 0) as [->|].
    + specialize (HZ eq_refl). subst k. exists 0. assert (better (f (0 / n) (0 mod n)) (f (0 / n) (0 mod n)) = false) as -> by apply HW. split; [lia|]. split; [reflexivity|]. split; [|lia]. intros _. change (Z.to_nat (0 + 1)) with 1%nat.
      assert (firstn 1 l = [f (0 / n) (0 mod n)]) as ->. { specialize (HG 0 ltac:(nia)). destruct l; [discriminate|]. rewrite znth_cons_0 in HG. injection HG as ->. reflexivity. }
      now apply first_best_one.
    + specialize (HB ltac:(lia)). pose proof (best_step l p _ k _ HW (HG p Hp) HB) as HS. cbv zeta in HS. destruct (better _ _); [exists p|exists k]; repeat split; try lia; apply HS.
  - specialize (HB ltac:(nia)). rewrite firstn_all2 in HB by (unfold zlen in HL; lia). destruct HB as (_ & F2 & F3). exists (k / n), (k mod n). split; [split; [apply Z.div_pos; lia|apply Z.div_lt_upper_bound; lia]|]. split; [apply Z.mod_pos_bound; lia|]. split; [reflexivity|].
    assert (forall i' j', 0 <= i' < m -> 0 <= j' < n -> znth l (i' * n + j') = Some (f i' j')) as HG2.
    { intros i' j' Hi Hj. rewrite HG by nia. rewrite Z.div_add_l, Z.div_small, Z.add_0_r by lia. now replace ((i' * n + j') mod n) with j' by (rewrite Z.add_comm, Z.mod_add, Z.mod_small; lia). }
    split; intros i' j' Hi Hj; specialize (HG2 i' j' Hi Hj).
    + apply F2. eapply znth_in. exact HG2.
    + intros HB. apply (F3 (i' * n + j')); [|assumption]. rewrite (Z.div_mod k n) by lia. clear -HB Hi Hj Hk Hn. pose proof (Z.mod_pos_bound k n Hn). unfold before in HB. generalize dependent (k mod n). generalize (k / n). intros q r HB Hr. nia.
Qed.
End BEST.
