(** Quantifiers, sums, products, dot products, polynomials. *)
From Coq Require Import Permutation Ring_theory Ring.
From Verif Require Import Base.Outcome Base.ZList Model.Index Model.Slice Model.Array1D Model.Array2D Model.View2D Model.Expr Model.Reduce.
From Verif Require Import Spec.ArraySpec Spec.SliceSpec Spec.MatrixSpec Spec.Matrix2Spec Spec.View2DSpec Spec.ExprSpec Spec.ReduceSpec.
From Verif Require Import Proofs.Array1DProofs Proofs.MatrixProofs Proofs.Array2DProofs Proofs.ExprProofs Proofs.ExprThms Proofs.ExprEval Proofs.ExprMore Proofs.ReduceProofs.
Ltac Zify.zify_post_hook ::= Z.div_mod_to_equations.

(** ** any_of, all_of, none_of *)
Lemma any_loop_ok {V} (f : V -> outcome bool) (A : src1 V) l : yields A l -> forall k i, 0 <= i -> i + Z.of_nat k = zlen l ->
  any_loop k i f A = fold_right (fun v r => x <- v ;; b <- f x ;; if b then Ok true else r) (Ok false) (skipn (Z.to_nat i) l).
Proof.
  intros (E & HL & HU). induction k as [|k IH]; intros i Hi HK.
  - cbn. rewrite skipn_all2 by (unfold zlen in HK; lia). reflexivity.
  - cbn [any_loop]. rewrite elt_skip by lia. cbn [fold_right]. rewrite HU by lia. destruct (elt l i); cbn [bind]; try reflexivity. destruct (f a) as [[|]| |]; cbn [bind]; try reflexivity. apply IH; lia.
Qed.
Lemma all_loop_ok {V} (f : V -> outcome bool) (A : src1 V) l : yields A l -> forall k i, 0 <= i -> i + Z.of_nat k = zlen l ->
  all_loop k i f A = fold_right (fun v r => x <- v ;; b <- f x ;; if b then r else Ok false) (Ok true) (skipn (Z.to_nat i) l).
Proof.
  intros (E & HL & HU). induction k as [|k IH]; intros i Hi HK.
  - cbn. rewrite skipn_all2 by (unfold zlen in HK; lia). reflexivity.
  - cbn [all_loop]. rewrite elt_skip by lia. cbn [fold_right]. rewrite HU by lia. destruct (elt l i); cbn [bind]; try reflexivity. destruct (f a) as [[|]| |]; cbn [bind]; try reflexivity. apply IH; lia.
Qed.
Lemma any_eq {V} (f : V -> outcome bool) (A : src1 V) l d : yields A l -> l <> [] -> r_any f A d = fold_right (fun v r => x <- v ;; b <- f x ;; if b then Ok true else r) (Ok false) l.
Proof.
  intros HA HN. pose proof HA as (E & HL & _). unfold r_any. rewrite E. destruct l as [|v l]; [congruence|]. pose proof (zlen_nonneg l). rewrite zlen_cons at 1. replace (1 + zlen l =? 0) with false by lia.
  rewrite (any_loop_ok f A (v :: l) HA) by (rewrite ?zlen_cons; lia). reflexivity.
Qed.
Lemma all_eq {V} (f : V -> outcome bool) (A : src1 V) l d : yields A l -> l <> [] -> r_all f A d = fold_right (fun v r => x <- v ;; b <- f x ;; if b then r else Ok false) (Ok true) l.
Proof.
  intros HA HN. pose proof HA as (E & HL & _). unfold r_all. rewrite E. destruct l as [|v l]; [congruence|]. pose proof (zlen_nonneg l). rewrite zlen_cons at 1. replace (1 + zlen l =? 0) with false by lia.
  rewrite (all_loop_ok f A (v :: l) HA) by (rewrite ?zlen_cons; lia). reflexivity.
Qed.
Lemma empty_defaults {V} (f : V -> outcome bool) (A : src1 V) d : yields A [] -> r_any f A d = Ok d /\ r_all f A d = Ok d /\ r_none f A d = Ok d.
Proof. intros (E & _). change (zlen (@nil (outcome V))) with 0 in E. unfold r_none, r_any, r_all. rewrite E. auto. Qed.
Section QUANT.
Context {V : Type} (f : V -> bool).
Lemma any_pure (A : src1 V) l d : yields A (map Ok l) -> l <> [] -> exists r, r_any (fun x => Ok (f x)) A d = Ok r /\ (r = true <-> exists x, In x l /\ f x = true).
Proof.
  intros HA HN. rewrite (any_eq _ A (map Ok l) d HA) by (destruct l; cbn; congruence). clear HA HN. cbn [bind]. induction l as [|x l IH]; cbn [map fold_right bind].
  - exists false. split; [reflexivity|]. split; [discriminate|]. intros (x & [] & _).
  - destruct (f x) eqn:E.
    + exists true. split; [reflexivity|]. split; [|reflexivity]. intros _. exists x. split; [now left|assumption].
    + destruct IH as (r & -> & H). exists r. split; [reflexivity|]. rewrite H. split; [intros (y & Hy & Ey); exists y; split; [now right|assumption]|]. intros (y & [->|Hy] & Ey); [congruence|eauto].
Qed.
Lemma all_pure (A : src1 V) l d : yields A (map Ok l) -> l <> [] -> exists r, r_all (fun x => Ok (f x)) A d = Ok r /\ (r = true <-> forall x, In x l -> f x = true).
Proof.
  intros HA HN. rewrite (all_eq _ A (map Ok l) d HA) by (destruct l; cbn; congruence). clear HA HN. cbn [bind]. induction l as [|x l IH]; cbn [map fold_right bind].
  - exists true. split; [reflexivity|]. split; [|reflexivity]. intros _ x [].
  - destruct (f x) eqn:E.
    + destruct IH as (r & -> & H). exists r. split; [reflexivity|]. rewrite H. split; [intros HA y [->|Hy]; auto|]. intros HA y Hy. apply HA. now right.
    + exists false. split; [reflexivity|]. split; [discriminate|]. intros HA. rewrite HA in E by now left. discriminate.
Qed.
Lemma none_pure (A : src1 V) l d : yields A (map Ok l) -> l <> [] -> exists r, r_none (fun x => Ok (f x)) A d = Ok r /\ (r = true <-> forall x, In x l -> f x = false).
Proof.
  intros HA HN. destruct (any_pure A l false HA HN) as (r & E & H). unfold r_none. pose proof HA as (ES & _). rewrite zlen_map in ES. rewrite ES. destruct l as [|x l]; [congruence|]. pose proof (zlen_nonneg l). rewrite zlen_cons. replace (1 + zlen l =? 0) with false by lia. rewrite E. cbn [bind]. exists (negb r). split; [reflexivity|].
  split.
  - intros Hr y Hy. destruct (f y) eqn:Ey; [|reflexivity]. destruct r; [discriminate|]. enough (false = true) by discriminate. apply H. eauto.
  - intros HA'. destruct r; [|reflexivity]. destruct H as [H _]. destruct (H eq_refl) as (y & Hy & Ey). rewrite HA' in Ey by assumption. discriminate.
Qed.
End QUANT.
(** The search stops at the deciding element: what follows is neither read nor tested. *)
Lemma any_stops {V} (f : V -> outcome bool) (A : src1 V) l v k d : yields A (map Ok l ++ v :: k) -> (forall x, In x l -> f x = Ok false) -> forall r, (x <- v ;; f x) = r -> r <> Ok false ->
  r_any f A d = r.
Proof.
  intros HA HF r Hr HN. rewrite (any_eq f A _ d HA) by (destruct l; discriminate). clear HA. induction l as [|x l IH]; cbn [map app fold_right bind].
  - destruct v as [y| |]; cbn [bind] in *; try congruence. rewrite Hr. destruct r as [[|]| |]; cbn [bind]; congruence.
  - rewrite (HF x) by now left. cbn [bind]. apply IH. intros y Hy. apply HF. now right.
Qed.
Lemma all_stops {V} (f : V -> outcome bool) (A : src1 V) l v k d : yields A (map Ok l ++ v :: k) -> (forall x, In x l -> f x = Ok true) -> forall r, (x <- v ;; f x) = r -> r <> Ok true ->
  r_all f A d = r.
Proof.
  intros HA HF r Hr HN. rewrite (all_eq f A _ d HA) by (destruct l; discriminate). clear HA. induction l as [|x l IH]; cbn [map app fold_right bind].
  - destruct v as [y| |]; cbn [bind] in *; try congruence. rewrite Hr. destruct r as [[|]| |]; cbn [bind]; congruence.
  - rewrite (HF x) by now left. cbn [bind]. apply IH. intros y Hy. apply HF. now right.
Qed.
(** Two arrays. *)
Lemma pair_ok {U V} (A : src1 U) (B : src1 V) l k : yields A l -> yields B k -> zlen l = zlen k -> yields (pair_src A B) (zip (fun u v => Ok (u, v)) l k).
Proof.
  intros (EA & LA & UA) (EB & LB & UB) HL. unfold yields, pair_src. cbn [ssize sun]. rewrite zlen_zip. split; [lia|]. split; [lia|]. intros i Hi. rewrite elt_zip, UA, UB by lia. reflexivity.
Qed.
Lemma zip_pairs {U V} (l : list U) (k : list V) : zip (fun u v => Ok (u, v)) (map Ok l) (map Ok k) = map Ok (combine l k).
Proof. revert k. induction l as [|x l IH]; intros [|y k]; cbn; try reflexivity. f_equal. apply IH. Qed.
Section QUANT2.
Context {U V : Type} (c : cfg) (f : U -> V -> bool).
Let F := fun u v => Ok (f u v).
Lemma quant2_mismatch (A : src1 U) (B : src1 V) d : checked c = true ->
  r_any2 c false F A B d = Fail (report c) /\ r_all2 c false F A B d = Fail (report c) /\ r_none2 c false F A B d = Fail (report c).
Proof. intros HC. unfold r_any2, r_all2, r_none2. now rewrite check_debug_false. Qed.
Lemma quant2_ok (A : src1 U) (B : src1 V) l k d : yields A (map Ok l) -> yields B (map Ok k) -> zlen l = zlen k -> l <> [] ->
  (exists r, r_any2 c true F A B d = Ok r /\ (r = true <-> exists x y, In (x, y) (combine l k) /\ f x y = true)) /\
  (exists r, r_all2 c true F A B d = Ok r /\ (r = true <-> forall x y, In (x, y) (combine l k) -> f x y = true)) /\
  (exists r, r_none2 c true F A B d = Ok r /\ (r = true <-> forall x y, In (x, y) (combine l k) -> f x y = false)).
Proof.
  intros HA HB HL HN. pose proof (pair_ok A B _ _ HA HB ltac:(now rewrite !zlen_map)) as HP. rewrite zip_pairs in HP.
  assert (combine l k <> []) as HC by (destruct l, k; cbn; unfold zlen in HL; cbn in HL; try congruence; lia).
  unfold r_none2, r_any2, r_all2. rewrite check_debug_true. cbn [bind]. destruct (any_pure (fun p => f (fst p) (snd p)) _ _ d HP HC) as (r1 & E1 & H1). destruct (all_pure (fun p => f (fst p) (snd p)) _ _ d HP HC) as (r2 & E2 & H2). destruct (none_pure (fun p => f (fst p) (snd p)) _ _ d HP HC) as (r3 & E3 & H3).
  split; [exists r1; split; [exact E1|]; rewrite H1; split; [intros ((x, y) & Hx & Ex); eauto|intros (x & y & Hx & Ex); exists (x, y); auto]|].
  split; [exists r2; split; [exact E2|]; rewrite H2; split; [intros H x y Hx; exact (H _ Hx)|intros H (x, y) Hx; exact (H _ _ Hx)]|].
  exists r3. split; [exact E3|]. rewrite H3. split; [intros H x y Hx; exact (H _ Hx)|intros H (x, y) Hx; exact (H _ _ Hx)].
Qed.
End QUANT2.

(** ** Sums and products *)
Section MONOID.
Context {V : Type} (op : V -> V -> V) (e : V).
Hypothesis (op_assoc : forall x y z, op x (op y z) = op (op x y) z) (op_e : forall x, op x e = x) (e_op : forall x, op e x = x).
Lemma fold_left_total l : forall s, fold_left op l s = op s (total op e l).
Proof. unfold total. induction l as [|x l IH]; intros s; cbn; [now rewrite op_e|]. now rewrite IH, op_assoc. Qed.
Lemma total_app l k : total op e (l ++ k) = op (total op e l) (total op e k).
Proof. unfold total. induction l as [|x l IH]; cbn; [now rewrite e_op|]. now rewrite IH, op_assoc. Qed.
Lemma fold_total (A : src1 V) l d : yields A (map Ok l) -> l <> [] -> r_fold (fun x y => Ok (op x y)) A d = Ok (total op e l).
Proof.
  intros HA HN. rewrite (fold_ok _ A _ d HA). destruct l as [|x l]; [congruence|]. cbn [map bind]. rewrite foldo_pure. f_equal. apply fold_left_total.
Qed.
Lemma fold_empty {W} (g : W -> W -> outcome W) (A : src1 W) d : yields A [] -> r_fold g A d = Ok d.
Proof. intros HA. now rewrite (fold_ok g A [] d HA). Qed.
Lemma fold_merge c (A B : src1 V) l k d : yields A (map Ok l) -> yields B (map Ok k) -> l <> [] -> k <> [] -> zlen l + zlen k <= LONG_MAX ->
  exists R s t, x_merge c A B = Ok R /\ r_fold (fun x y => Ok (op x y)) A d = Ok s /\ r_fold (fun x y => Ok (op x y)) B d = Ok t /\ r_fold (fun x y => Ok (op x y)) R d = Ok (op s t).
Proof.
  intros HA HB HL HK HN. destruct (merge_ok c A B _ _ HA HB) as (R & E & HR); [now rewrite !zlen_map|]. rewrite <- map_app in HR. exists R, (total op e l), (total op e k). rewrite (fold_total A l d HA HL), (fold_total B k d HB HK), (fold_total R (l ++ k) d HR) by (destruct l; [congruence|discriminate]). rewrite total_app. auto.
Qed.
(** The sum of a two-dimensional array adds the elements in row-major order. *)
Lemma fold_total2 (A : src2 V) m n f d : 0 < m -> 0 < n -> yields2 A (mkmx m n (fun i j => Ok (f i j))) ->
  r_fold (fun x y => Ok (op x y)) (flat2 A) d = Ok (total op e (map (fun i => total op e (map (f i) (zseq 0 (Z.to_nat n)))) (zseq 0 (Z.to_nat m)))).
Proof.
  intros Hm Hn HA. pose proof (flat2_ok A _ HA) as HF. set (l := map (fun p => f (p / n) (p mod n)) (zseq 0 (Z.to_nat (m * n)))).
  assert (mlist (mkmx m n (fun i j => Ok (f i j))) = map Ok l) as EL. { unfold mlist, l. rewrite map_map. reflexivity. }
  rewrite EL in HF. rewrite (fold_total _ l d HF). 2:{ unfold l. assert (Z.to_nat (m * n) <> 0%nat) by nia. destruct (Z.to_nat (m * n)); [congruence|discriminate]. }
  f_equal. unfold l. clear HF EL l HA d. assert (0 <= m) as Hm' by lia. clear Hm. revert m Hm'. apply (natlike_ind (fun m => total op e (map (fun p => f (p / n) (p mod n)) (zseq 0 (Z.to_nat (m * n)))) = total op e (map (fun i => total op e (map (f i) (zseq 0 (Z.to_nat n)))) (zseq 0 (Z.to_nat m))))); [reflexivity|].
  intros m Hm IH. replace (Z.to_nat (Z.succ m * n)) with (Z.to_nat (m * n) + Z.to_nat n)%nat by nia. replace (Z.to_nat (Z.succ m)) with (S (Z.to_nat m)) by lia. rewrite zseq_app, zseq_S, !map_app, !total_app, IH. f_equal. unfold total at 2. cbn [map fold_right]. rewrite op_e. f_equal.
  replace (0 + Z.of_nat (Z.to_nat (m * n))) with (0 + m * n) by nia. rewrite map_zseq_shift. apply map_zseq_ext. intros j Hj. replace (0 + Z.of_nat (Z.to_nat m)) with m by lia. f_equal; [rewrite Z.div_add, Z.div_small; lia|rewrite Z.mod_add, Z.mod_small; lia].
Qed.
End MONOID.
Lemma total_perm {V} (op : V -> V -> V) e : (forall x y z, op x (op y z) = op (op x y) z) -> (forall x y, op x y = op y x) -> forall l k, Permutation l k -> total op e l = total op e k.
Proof.
  intros HA HC l k HP. unfold total. induction HP as [|x l k HP IH|x y l|l k m H1 IH1 H2 IH2]; cbn; [reflexivity|congruence| |congruence]. rewrite !HA. f_equal. apply HC.
Qed.
Lemma total_map_add {V} (op : V -> V -> V) e : (forall x y z, op x (op y z) = op (op x y) z) -> (forall x y, op x y = op y x) -> (forall x, op e x = x) ->
  forall l k, zlen l = zlen k -> total op e (products op l k) = op (total op e l) (total op e k).
Proof.
  intros HA HC HE l. unfold total, zlen. induction l as [|x l IH]; intros [|y k] HL; cbn in *; try lia; [now rewrite HE|]. rewrite IH by lia. rewrite !HA. f_equal. rewrite <- !HA. f_equal. apply HC.
Qed.

(** ** Dot product and polynomials over a commutative ring *)
Section RING.
Context {V : Type} (zero one : V) (add mul sub : V -> V -> V) (opp : V -> V).
Hypothesis RT : ring_theory zero one add mul sub opp eq.
Add Ring RR : RT.
Let Add := fun x y => Ok (add x y).
Let Mul := fun x y => Ok (mul x y).
Lemma zip_products l k : zip Mul (map Ok l) (map Ok k) = map Ok (products mul l k).
Proof. revert k. induction l as [|x l IH]; intros [|y k]; cbn; try reflexivity. f_equal. apply IH. Qed.
Lemma sum_ok (A : src1 V) l : yields A (map Ok l) -> r_sum Add A zero = Ok (total add zero l).
Proof.
  intros HA. destruct l as [|x l]; [unfold r_sum; now rewrite (fold_ok _ A _ zero HA)|]. apply fold_total; [intros; ring|intros; ring|assumption|discriminate].
Qed.
Lemma prod_ok (A : src1 V) l d : yields A (map Ok l) -> l <> [] -> r_prod Mul A d = Ok (total mul one l).
Proof. intros HA HN. apply fold_total; [intros; ring|intros; ring|assumption|assumption]. Qed.
Lemma dot_ok c (A B : src1 V) l k : yields A (map Ok l) -> yields B (map Ok k) -> zlen l = zlen k -> r_dot c Add Mul zero A B zero = Ok (total add zero (products mul l k)).
Proof.
  intros HA HB HL. pose proof HA as (EA & _). pose proof HB as (EB & _). rewrite zlen_map in EA. rewrite zlen_map in EB. unfold r_dot. rewrite EA, EB. replace (zlen l =? zlen k) with true by lia. rewrite check_debug_true. cbn [bind]. destruct (Z.eqb_spec (zlen l) 0) as [E|E].
  - destruct l; [reflexivity|]. rewrite zlen_cons in E. pose proof (zlen_nonneg l). lia.
  - destruct (bin_ok c Mul A B _ _ HA HB) as (P & -> & HP); [now rewrite !zlen_map|]. cbn [bind]. rewrite zip_products in HP. now apply sum_ok.
Qed.
Lemma dot_mismatch c (A B : src1 V) l k d : yields A l -> yields B k -> zlen l <> zlen k -> checked c = true -> r_dot c Add Mul zero A B d = Fail (report c).
Proof. intros (EA & _) (EB & _) HL HC. unfold r_dot. rewrite EA, EB. replace (zlen l =? zlen k) with false by lia. now rewrite check_debug_false. Qed.
Lemma dot_sym l k : total add zero (products mul l k) = total add zero (products mul k l).
Proof. unfold total. revert k. induction l as [|x l IH]; intros [|y k]; cbn; try reflexivity. rewrite IH. ring. Qed.
Lemma dot_linear a l l' k : zlen l = zlen l' -> zlen l = zlen k ->
  total add zero (products mul (products add (map (mul a) l) l') k) = add (mul a (total add zero (products mul l k))) (total add zero (products mul l' k)).
Proof. unfold total, zlen. revert l' k. induction l as [|x l IH]; intros [|x' l'] [|y k] H1 H2; cbn in *; try lia; [ring|]. rewrite IH by lia. ring. Qed.
Lemma dot2_ok c (A B : src2 V) m n f g : yields2 A (mkmx m n (fun i j => Ok (f i j))) -> yields2 B (mkmx m n (fun i j => Ok (g i j))) ->
  r_dot2 c Add Mul zero A B zero = Ok (total add zero (map (fun i => total add zero (map (fun j => mul (f i j) (g i j)) (zseq 0 (Z.to_nat n)))) (zseq 0 (Z.to_nat m)))).
Proof.
  intros HA HB. pose proof HA as (E1 & E2 & B1 & B2 & E3 & B3 & _). pose proof HB as (F1 & F2 & _). cbn [mr mc] in *. unfold r_dot2. rewrite E1, E2, F1, F2, E3. unfold same_size2. rewrite !Z.eqb_refl. cbn [andb]. rewrite check_debug_true. cbn [bind].
  destruct (Z.eqb_spec (m * n) 0) as [E|E].
  - f_equal. symmetry. assert (m = 0 \/ n = 0) as [->| ->] by nia; [reflexivity|]. cbn [zseq map]. change (total add zero (map (fun _ => zero) (zseq 0 (Z.to_nat m))) = zero). unfold total. induction (zseq 0 (Z.to_nat m)) as [|x l IH]; cbn; [reflexivity|]. rewrite IH. ring.
  - destruct (bin2_ok c Mul A B _ _ HA HB eq_refl eq_refl) as (P & -> & HP). cbn [bind]. apply (fold_total2 add zero); try (intros; ring); try lia. eapply yields2_ext; [exact HP|reflexivity|reflexivity|]. reflexivity.
Qed.
(** Horner. *)
Lemma poly_shift x cs : forall n, total add zero (poly_terms one mul x (S n) cs) = mul x (total add zero (poly_terms one mul x n cs)).
Proof. unfold total. induction cs as [|a cs IH]; intros n; cbn [poly_terms fold_right]; [ring|]. rewrite IH. cbn [power]. ring. Qed.
Lemma poly_snoc x a : forall l n, total add zero (poly_terms one mul x n (l ++ [a])) = add (total add zero (poly_terms one mul x n l)) (mul a (power one mul x (n + length l))).
Proof. unfold total. induction l as [|b l IHl]; intros n; cbn [app poly_terms fold_right length]; [rewrite Nat.add_0_r; ring|]. rewrite IHl. replace (n + S (length l))%nat with (S n + length l)%nat by lia. ring. Qed.
Lemma horner_ok (A : src1 V) cs x : yields A (map Ok cs) -> forall k s, (k <= length cs)%nat ->
  horner_loop k Add Mul A x s = Ok (add (total add zero (poly_terms one mul x 0 (firstn k cs))) (mul (power one mul x k) s)).
Proof.
  intros (E & HL & HU). rewrite zlen_map in HU. induction k as [|k IH]; intros s Hk.
  - cbn. f_equal. ring.
  - cbn [horner_loop]. rewrite HU by (unfold zlen; lia). destruct (znth_some cs (Z.of_nat k) ltac:(unfold zlen; lia)) as (a & Ha). unfold elt. rewrite znth_map, Ha. cbn [option_map bind]. unfold Mul at 1, Add at 1. cbn [bind]. rewrite IH by lia. f_equal.
    assert (firstn (S k) cs = firstn k cs ++ [a]) as ->. { unfold znth in Ha. replace (Z.of_nat k <? 0) with false in Ha by lia. rewrite Nat2Z.id in Ha. clear -Ha. revert cs Ha. induction k as [|k IH]; intros [|b cs]; cbn; try discriminate; [congruence|]. intros H. now rewrite <- IH. }
    rewrite poly_snoc.
    rewrite firstn_length, Nat.min_l by lia. cbn [power Nat.add]. ring.
Qed.
Lemma poly_ok c (A : src1 V) cs x : yields A (map Ok cs) -> r_poly c Add Mul A x zero = Ok (total add zero (poly_terms one mul x 0 cs)).
Proof.
  intros HA. pose proof HA as (E & HL & HU). rewrite zlen_map in E. rewrite zlen_map in HU. rewrite zlen_map in HL. unfold r_poly. rewrite E. destruct (Z.eqb_spec (zlen cs) 0) as [E0|E0].
  - destruct cs; [reflexivity|]. rewrite zlen_cons in E0. pose proof (zlen_nonneg cs). lia.
  - pose proof (zlen_nonneg cs). unfold sub1. rewrite E. cbn [idx_get]. rewrite lsub_ok by (unfold LONG_MIN; lia). cbn [bind]. rewrite ?ladd_ok, ?lsub_ok by (unfold LONG_MIN; lia). cbn [bind]. rewrite ?Z.sub_0_r, ?Z.add_0_r.
    replace (valid_index (zlen cs) (zlen cs - 1)) with true by (unfold valid_index; lia). rewrite check_debug_true. cbn [bind]. rewrite HU by lia. destruct (znth_some cs (zlen cs - 1) ltac:(lia)) as (a & Ha). unfold elt. rewrite znth_map, Ha. cbn [option_map bind]. 
    rewrite (horner_ok A cs x HA) by (unfold zlen; lia). f_equal.
    assert (cs = firstn (Z.to_nat (zlen cs - 1)) cs ++ [a]) as EC.
    { rewrite <- (firstn_all2 (n := Z.to_nat (zlen cs - 1 + 1)) cs) at 1 by (unfold zlen; lia). unfold znth in Ha. replace (zlen cs - 1 <? 0) with false in Ha by lia. replace (Z.to_nat (zlen cs - 1 + 1)) with (S (Z.to_nat (zlen cs - 1))) by lia. revert Ha. generalize (Z.to_nat (zlen cs - 1)). clear. intros k. revert cs. induction k as [|k IH]; intros [|b cs]; cbn; try discriminate; [congruence|]. intros H. now rewrite <- IH. }
    replace (zlen cs - 2 + 1) with (zlen cs - 1) by lia. rewrite EC at 4. set (l := firstn _ cs) in *. assert (length l = Z.to_nat (zlen cs - 1)) as HLl by (unfold l; rewrite firstn_length; unfold zlen; lia). rewrite <- HLl.
    rewrite poly_snoc. cbn [Nat.add]. ring.
Qed.
(** General polynomial. *)
Variable pow : V -> Z -> outcome V.
Hypothesis pow_ok : forall x p, 0 <= p -> pow x p = Ok (power one mul x (Z.to_nat p)).
Lemma gpoly_terms_nth cs : forall xs ps i a x p, znth cs i = Some a -> znth xs i = Some x -> znth ps i = Some p -> znth (gpoly_terms one mul cs xs ps) i = Some (mul a (power one mul x (Z.to_nat p))).
Proof.
  induction cs as [|a cs IH]; intros [|x xs] [|p ps] i a' x' p' H1 H2 H3; rewrite ?znth_nil in *; try discriminate. pose proof (znth_lt _ _ _ H1). destruct (Z.eq_dec i 0) as [->|].
  - rewrite znth_cons_0 in H1. rewrite znth_cons_0 in H2. rewrite znth_cons_0 in H3. cbn [gpoly_terms]. rewrite znth_cons_0. congruence.
  - cbn [gpoly_terms]. rewrite znth_cons_pos in H1 by lia. rewrite znth_cons_pos in H2 by lia. rewrite znth_cons_pos in H3 by lia. rewrite znth_cons_pos by lia. now apply IH.
Qed.
Lemma gpoly_len cs : forall xs ps, zlen cs = zlen xs -> zlen xs = zlen ps -> zlen (gpoly_terms one mul cs xs ps) = zlen cs.
Proof. unfold zlen. induction cs as [|a cs IH]; intros [|x xs] [|p ps] H1 H2; cbn [length gpoly_terms] in *; try lia. Qed.
Lemma gpoly_ok c (A X : src1 V) (P : src1 Z) cs xs ps : yields A (map Ok cs) -> yields X (map Ok xs) -> yields P (map Ok ps) -> zlen cs = zlen xs -> zlen xs = zlen ps -> Forall (fun p => 0 <= p) ps ->
  r_gpoly c Add Mul pow zero A X P zero = Ok (total add zero (gpoly_terms one mul cs xs ps)).
Proof.
  intros HA HX HP H1 H2 HF. pose proof HA as (EA & _ & UA). pose proof HX as (EX & _ & UX). pose proof HP as (EP & _ & UP). rewrite zlen_map in EA. rewrite zlen_map in UA. rewrite zlen_map in EX. rewrite zlen_map in UX. rewrite zlen_map in EP. rewrite zlen_map in UP. unfold r_gpoly. rewrite EA, EX, EP. replace (zlen cs =? zlen xs) with true by lia. replace (zlen xs =? zlen ps) with true by lia. cbn [andb]. rewrite check_debug_true. cbn [bind].
  destruct (Z.eqb_spec (zlen cs) 0) as [E0|E0].
  - destruct cs; [reflexivity|]. rewrite zlen_cons in E0. pose proof (zlen_nonneg cs). lia.
  - destruct (all_pure (fun p => 0 <=? p) P ps false HP) as (r & -> & Hr); [intros ->; cbn in *; lia|]. assert (r = true) as ->. { apply Hr. intros p Hp. rewrite Forall_forall in HF. specialize (HF p Hp). lia. } rewrite check_debug_true. cbn [bind].
    rewrite <- H1. set (ts := gpoly_terms one mul cs xs ps). assert (zlen ts = zlen cs) as HT by (apply gpoly_len; assumption).
    assert (forall i, 0 <= i < zlen cs -> exists t, znth ts i = Some t /\ forall z, (a <- sun A i ;; x <- sun X i ;; p <- sun P i ;; q <- pow x p ;; t <- Mul a q ;; Add z t) = Ok (add z t)) as HS.
    { intros i Hi. destruct (znth_some cs i Hi) as (a & Ha). destruct (znth_some xs i ltac:(lia)) as (x & Hx). destruct (znth_some ps i ltac:(lia)) as (p & Hp). exists (mul a (power one mul x (Z.to_nat p))). split; [now apply gpoly_terms_nth|]. intros z.
      rewrite UA, UX, UP by lia. unfold elt. rewrite !znth_map, Ha, Hx, Hp. cbn [option_map bind]. rewrite pow_ok by (rewrite Forall_forall in HF; apply HF; eapply znth_in; exact Hp). reflexivity. }
    destruct (for_inv (fun i z => z = total add zero (firstn (Z.to_nat i) ts)) 0 (zlen cs) (fun i z => a <- sun A i ;; x <- sun X i ;; p <- sun P i ;; q <- pow x p ;; t <- Mul a q ;; Add z t) zero) as (r & -> & ->).
    + pose proof (zlen_nonneg cs). lia.
    + reflexivity.
    + intros i z Hi ->. destruct (HS i Hi) as (t & Ht & Ez). rewrite Ez. eexists. split; [reflexivity|]. 
      assert (firstn (Z.to_nat (i + 1)) ts = firstn (Z.to_nat i) ts ++ [t]) as ->. { replace (Z.to_nat (i + 1)) with (S (Z.to_nat i)) by lia. unfold znth in Ht. replace (i <? 0) with false in Ht by lia. clear -Ht. revert Ht. generalize ts. generalize (Z.to_nat i). intros k. induction k as [|k IH]; intros [|b l]; cbn; try discriminate; [congruence|]. intros H. now rewrite <- IH. }
      rewrite (total_app add zero) by (intros; ring). unfold total at 3. cbn. ring.
    + f_equal. f_equal. apply firstn_all2. unfold zlen in *. lia.
Qed.
Lemma gpoly_mismatch c (A X : src1 V) (P : src1 Z) l k p d : yields A l -> yields X k -> yields P p -> zlen l <> zlen k \/ zlen k <> zlen p -> checked c = true ->
  r_gpoly c Add Mul pow zero A X P d = Fail (report c).
Proof. clear pow_ok.   intros (EA & _) (EX & _) (EP & _) H HC. unfold r_gpoly. rewrite EA, EX, EP. replace ((zlen l =? zlen k) && (zlen k =? zlen p)) with false by lia. now rewrite check_debug_false.
Qed.
Lemma gpoly_negative c (A X : src1 V) (P : src1 Z) l k ps d : yields A l -> yields X k -> yields P (map Ok ps) -> zlen l = zlen k -> zlen k = zlen ps -> l <> [] -> ~ Forall (fun p => 0 <= p) ps -> checked c = true ->
  r_gpoly c Add Mul pow zero A X P d = Fail (report c).
Proof. clear pow_ok.   intros (EA & _) (EX & _) HP H1 H2 HN HF HC. pose proof HP as (EP & _). rewrite zlen_map in EP. unfold r_gpoly. rewrite EA, EX, EP. replace (zlen l =? zlen k) with true by lia. replace (zlen k =? zlen ps) with true by lia. cbn [andb]. rewrite check_debug_true. cbn [bind].
  replace (zlen l =? 0) with false by (destruct l; [congruence|]; rewrite zlen_cons; pose proof (zlen_nonneg l); lia).
  destruct (all_pure (fun p => 0 <=? p) P ps false HP) as (r & -> & Hr). { intros ->. apply HF. constructor. }
  destruct r; [|now rewrite check_debug_false]. exfalso. apply HF. apply Forall_forall. intros p Hp. pose proof (proj1 Hr eq_refl p Hp). lia.
Qed.
Lemma poly_powers_ok c (A : src1 V) (P : src1 Z) cs x ps : yields A (map Ok cs) -> yields P (map Ok ps) -> zlen cs = zlen ps -> Forall (fun p => 0 <= p) ps ->
  r_poly_powers c Add Mul pow zero A x P zero = Ok (total add zero (gpoly_terms one mul cs (map (fun _ => x) cs) ps)).
Proof.
  intros HA HP H1 HF. pose proof HA as (EA & LA & _). pose proof HP as (EP & _). rewrite zlen_map in EA. rewrite zlen_map in EP. rewrite zlen_map in LA. unfold r_poly_powers. rewrite EA, EP. replace (zlen cs =? zlen ps) with true by lia. rewrite check_debug_true. cbn [bind].
  destruct (Z.eqb_spec (zlen cs) 0) as [E0|E0].
  - destruct cs; [reflexivity|]. rewrite zlen_cons in E0. pose proof (zlen_nonneg cs). lia.
  - destruct (all_pure (fun p => 0 <=? p) P ps false HP) as (r & -> & Hr); [intros ->; cbn in *; lia|]. assert (r = true) as ->. { apply Hr. intros p Hp. rewrite Forall_forall in HF. specialize (HF p Hp). lia. } rewrite check_debug_true. cbn [bind].
    pose proof (zlen_nonneg cs). destruct (const1_ok c x (zlen cs) ltac:(lia)) as (X & -> & HX). cbn [bind]. apply gpoly_ok; try assumption; [|now rewrite zlen_map|now rewrite zlen_map].
    replace (map Ok (map (fun _ => x) cs)) with (repeat (Ok x) (Z.to_nat (zlen cs))); [assumption|]. unfold zlen. rewrite Nat2Z.id. clear. induction cs; cbn; congruence.
Qed.
Lemma poly_powers_mismatch c (A : src1 V) (P : src1 Z) l x p d : yields A l -> yields P p -> zlen l <> zlen p -> checked c = true -> r_poly_powers c Add Mul pow zero A x P d = Fail (report c).
Proof. clear pow_ok.  intros (EA & _) (EP & _) H HC. unfold r_poly_powers. rewrite EA, EP. replace (zlen l =? zlen p) with false by lia. now rewrite check_debug_false. Qed.
(** With powers 0, 1, 2, ... it is the ordinary polynomial. *)
Lemma powers_iota x cs : forall n, gpoly_terms one mul cs (map (fun _ => x) cs) (zseq (Z.of_nat n) (length cs)) = poly_terms one mul x n cs.
Proof. clear pow_ok. clear pow.  induction cs as [|a cs IH]; intros n; [reflexivity|]. cbn [map length zseq gpoly_terms poly_terms]. rewrite Nat2Z.id. f_equal. replace (Z.of_nat n + 1) with (Z.of_nat (S n)) by lia. apply IH. Qed.
End RING.
(** has_zero, all_pos, all_finite and the like; comparison with a value. *)
Lemma tests_ok {V} (f : V -> bool) (A : src1 V) l d : yields A (map Ok l) -> l <> [] ->
  (exists r, r_all_test f A d = Ok r /\ (r = true <-> forall x, In x l -> f x = true)) /\
  (exists r, r_any_test f A d = Ok r /\ (r = true <-> exists x, In x l /\ f x = true)).
Proof.
  intros HA HN. destruct (all_pure f A l false HA HN) as (r & E & H). destruct (any_pure f A l false HA HN) as (r' & E' & H'). unfold r_all_test, r_any_test. pose proof HA as (ES & _). rewrite zlen_map in ES. rewrite ES. destruct l as [|x l]; [congruence|]. pose proof (zlen_nonneg l). rewrite zlen_cons. replace (1 + zlen l =? 0) with false by lia. split; [exists r|exists r']; split; assumption.
Qed.
Lemma tests_empty {V} (f : V -> bool) (A : src1 V) d : yields A [] -> r_all_test f A d = Ok d /\ r_any_test f A d = Ok d.
Proof. intros (E & _). change (zlen (@nil (outcome V))) with 0 in E. unfold r_all_test, r_any_test. rewrite E. auto. Qed.
Lemma vals_ok {V} (eqb : V -> V -> bool) x (A : src1 V) l d : (forall a b, eqb a b = true <-> a = b) -> yields A (map Ok l) -> l <> [] ->
  (exists r, r_any_val eqb x A d = Ok r /\ (r = true <-> In x l)) /\ (exists r, r_all_val eqb x A d = Ok r /\ (r = true <-> forall y, In y l -> y = x)) /\
  (exists r, r_none_val eqb x A d = Ok r /\ (r = true <-> ~ In x l)).
Proof.
  intros HE HA HN. destruct (any_pure (fun y => eqb y x) A l d HA HN) as (r1 & E1 & H1). destruct (all_pure (fun y => eqb y x) A l d HA HN) as (r2 & E2 & H2). destruct (none_pure (fun y => eqb y x) A l d HA HN) as (r3 & E3 & H3).
  split; [exists r1; split; [exact E1|]; rewrite H1; split; [intros (y & Hy & Ey); apply HE in Ey; now subst|intros Hx; exists x; split; [assumption|now apply HE]]|].
  split; [exists r2; split; [exact E2|]; rewrite H2; split; intros H y Hy; apply HE; now apply H|].
  exists r3. split; [exact E3|]. rewrite H3. split; [intros H Hx; specialize (H x Hx); rewrite (proj2 (HE x x) eq_refl) in H; discriminate|]. intros H y Hy. destruct (eqb y x) eqn:E; [|reflexivity]. apply HE in E. now subst.
Qed.
Lemma min_ok {V} (ltb : V -> V -> bool) (A : src1 V) l d e : weak_order ltb -> l <> [] -> yields A (map Ok l) ->
  exists i m, r_min ltb A d = Ok m /\ r_best_index ltb A e = Ok (i, m) /\ first_best ltb l i m.
Proof. intros HW HN HA. destruct (best_ok ltb A l d e HW HN HA) as (i & m & H1 & H2 & H3). exists i, m. auto. Qed.
Lemma max_ok {V} (gtb : V -> V -> bool) (A : src1 V) l d e : weak_order gtb -> l <> [] -> yields A (map Ok l) ->
  exists i m, r_max gtb A d = Ok m /\ r_best_index gtb A e = Ok (i, m) /\ first_best gtb l i m.
Proof. intros HW HN HA. destruct (best_ok gtb A l d e HW HN HA) as (i & m & H1 & H2 & H3). exists i, m. auto. Qed.
(** Two dimensions: min/max walk the linear order, min_index/max_index the rows; they agree. *)
Lemma min2_ok {V} (ltb : V -> V -> bool) (A : src2 V) m n f d e : weak_order ltb -> 0 < m -> 0 < n -> yields2 A (mkmx m n (fun i j => Ok (f i j))) ->
  exists i j v, 0 <= i < m /\ 0 <= j < n /\ r_best_index2 ltb A e = Ok (i, j, f i j) /\ r_min ltb (flat2 A) d = Ok v /\ ltb v (f i j) = false /\ ltb (f i j) v = false /\
    (forall i' j', 0 <= i' < m -> 0 <= j' < n -> ltb (f i' j') (f i j) = false) /\
    (forall i' j', 0 <= i' < m -> 0 <= j' < n -> before i' j' i j -> ltb (f i j) (f i' j') = true).
Proof.
  intros HW Hm Hn HA. destruct (best2_ok ltb A m n f e HW Hm Hn HA) as (i & j & Hi & Hj & E & H1 & H2).
  pose proof (flat2_ok A _ HA) as HF. set (l := map (fun p => f (p / n) (p mod n)) (zseq 0 (Z.to_nat (m * n)))).
  assert (mlist (mkmx m n (fun i j => Ok (f i j))) = map Ok l) as EL. { unfold mlist, l. rewrite map_map. reflexivity. }
  rewrite EL in HF. destruct (min_ok ltb (flat2 A) l d (0, f 0 0) HW) as (k & v & E' & _ & (K1 & K2 & _)); [|assumption|].
  { unfold l. assert (Z.to_nat (m * n) <> 0%nat) by nia. destruct (Z.to_nat (m * n)); [congruence|discriminate]. }
  exists i, j, v. do 4 (split; [assumption|]). 
  assert (In (f i j) l) as HI. { unfold l. apply in_map_iff. exists (i * n + j). split; [f_equal; [rewrite Z.div_add_l, Z.div_small; lia|rewrite Z.add_comm, Z.mod_add, Z.mod_small; lia]|]. apply in_zseq. nia. }
  split; [|split; [now apply K2|auto]].
  apply znth_in in K1. unfold l in K1. apply in_map_iff in K1. destruct K1 as (p & <- & Hp). apply in_zseq in Hp. apply H1; [split; [apply Z.div_pos; lia|apply Z.div_lt_upper_bound; nia]|apply Z.mod_pos_bound; lia].
Qed.
Lemma mean_ok {V} zero one add mul sub opp : @ring_theory V zero one add mul sub opp eq -> forall (div : V -> V -> outcome V) cast (A : src1 V) l d, yields A (map Ok l) -> l <> [] ->
  r_mean (fun x y => Ok (add x y)) div cast zero A d = (n <- cast (zlen l) ;; div (total add zero l) n).
Proof.
  intros RT div cast A l d HA HN. unfold r_mean. rewrite (sum_ok zero one add mul sub opp RT A l HA). pose proof HA as (ES & _). rewrite zlen_map in ES. rewrite ES. destruct l as [|x l]; [congruence|]. pose proof (zlen_nonneg l). rewrite zlen_cons. replace (1 + zlen l =? 0) with false by lia. reflexivity.
Qed.
