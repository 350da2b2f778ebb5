(** Sorting: agreement with min and max, floating-point elements. *)
From Coq Require Import Sorting.Permutation Reals Lra.
From Flocq Require Import Core BinarySingleNaN.
From Verif Require Import Base.Outcome Base.ZList Model.Index Model.Array1D Model.View2D Model.Expr Model.Reduce Model.StableOps Model.FloatModel Model.SortModel.
From Verif Require Import Spec.ArraySpec Spec.View2DSpec Spec.ExprSpec Spec.ReduceSpec Spec.NormSpec Spec.FloatSpec Spec.SortSpec.
From Verif Require Import Proofs.ExprProofs Proofs.ReduceProofs Proofs.ReduceThms Proofs.FloatProofs Proofs.FloatCmp Proofs.SliceProofs Proofs.SortProofs.

Section P.
Context {V : Type}.
Implicit Types (l old new : list V) (ltb less : V -> V -> bool).
Lemma total_weak_order ltb : total_order ltb -> weak_order ltb.
Proof.
  intros (H1 & H2 & H3). split; [exact H1|]. split; [exact H2|]. intros x y z A B. destruct (ltb x z) eqn:E; [|reflexivity].
  destruct (ltb y x) eqn:C; [now rewrite (H2 y x z) in B|]. assert (x = y) as -> by auto. congruence.
Qed.
Theorem ends_min_max ltb (A : src1 V) old new d e : total_order ltb -> old <> [] -> yields A (map Ok old) -> Permutation old new -> ordered ltb new ->
  r_min ltb A d = oget new 0 /\ r_max (fun x y => ltb y x) A e = oget new (zlen new - 1).
Proof.
  intros HT HN HA HP HO. split.
  - destruct (min_ok ltb A old d (0, d) (total_weak_order _ HT) HN HA) as (i & m & E & _ & (Hi & Hm & _)). rewrite E. symmetry. apply oget_ok. eapply ends_thm; eauto. now apply znth_in in Hi.
  - pose proof (total_flip _ HT) as HT'. destruct (max_ok (fun x y => ltb y x) A old e (0, e) (total_weak_order _ HT') HN HA) as (i & m & E & _ & (Hi & Hm & _)). rewrite E. symmetry. apply oget_ok.
    assert (zlen new = zlen old) as EL by (symmetry; now apply perm_zlen). assert (0 < zlen new) as H0 by (rewrite EL; destruct old; [contradiction|unfold zlen; cbn [length]; lia]).
    assert (znth (rev new) 0 = Some m) as HR.
    { apply (ends_thm (fun x y => ltb y x) old (rev new) m); auto; [|now apply ordered_rev|now apply znth_in in Hi]. eapply Permutation_trans; [exact HP|apply Permutation_rev]. }
    rewrite znth_rev in HR by lia. rewrite <- HR. f_equal. lia.
Qed.
(** A comparison holding between an element and itself, such as <=, is not admissible. *)
Theorem reflexive_thm c N o b less impl old x : is_view c N o -> zlen b = N -> holds c o b old -> In x old -> less x x = true -> sort_by impl less c o b = UB.
Proof. intros HV HB HO HI HX. eapply sort_order_thm; eauto. intros (H1 & _). rewrite H1 in HX by assumption. discriminate. Qed.
End P.

Section F.
Context (prec emax : Z) {Hp : Prec_gt_0 prec} {He : Prec_lt_emax prec emax}.
Notation flt := (binary_float prec emax).
Notation ev := (ev prec emax).
Implicit Types (x y z : flt) (l old : list flt).
Lemma ltb_true_ev x y : Bltb x y = true -> is_nan x = false /\ is_nan y = false /\ (ev x < ev y)%R.
Proof.
  intros H. assert (is_nan x = false) as A by (destruct x; now try discriminate). assert (is_nan y = false) as B by (destruct x, y; now try discriminate).
  repeat split; auto. rewrite ltb_ev in H by assumption. revert H. case Rlt_bool_spec; [auto|discriminate].
Qed.
Lemma ltb_false_ev x y : is_nan x = false -> is_nan y = false -> Bltb x y = false -> (ev y <= ev x)%R.
Proof. intros A B H. rewrite ltb_ev in H by assumption. revert H. case Rlt_bool_spec; [discriminate|auto]. Qed.
Lemma ltb_ev_false x y : is_nan x = false -> is_nan y = false -> (ev y <= ev x)%R -> Bltb x y = false.
Proof. intros A B H. rewrite ltb_ev by assumption. now apply Rlt_bool_false. Qed.
Theorem float_order_thm l : strict_weak (@Bltb prec emax) l <->
  (forall x, In x l -> is_nan x = false) \/ (forall x y, In x l -> In y l -> Bltb x y = false).
Proof.
  split.
  - intros (H1 & H2 & H3). destruct (existsb is_nan l) eqn:E.
    + right. apply existsb_exists in E as (n & Hn & Nn). intros x y Hx Hy. destruct (H3 x n y) as [A _]; auto; split; (now apply ltb_nan_l) || (now apply ltb_nan_r).
    + left. intros x Hx. destruct (is_nan x) eqn:X; [|reflexivity]. rewrite <- E. symmetry. apply existsb_exists. eauto.
  - intros [H|H].
    + split; [|split].
      * intros x Hx. apply ltb_ev_false; auto. lra.
      * intros x y z Hx Hy Hz A B. apply ltb_true_ev in A as (_ & _ & A). apply ltb_true_ev in B as (_ & _ & B). rewrite ltb_ev by auto. apply Rlt_bool_true. lra.
      * intros x y z Hx Hy Hz [A B] [C D]. apply ltb_false_ev in A, B, C, D; auto. split; apply ltb_ev_false; auto; lra.
    + split; [|split]; intros; auto. rewrite H in *; auto.
Qed.
Lemma flip_weak {V} (less : V -> V -> bool) (l : list V) : strict_weak less l -> strict_weak (fun u v : V => less v u) l.
Proof.
  intros (H1 & H2 & H3). split; [assumption|]. split; [intros u v w Hu Hv Hw A B; now apply (H2 w v u)|]. intros u v w Hu Hv Hw [A B] [C D]. destruct (H3 u v w); auto.
Qed.
Theorem nan_sort_thm c N o b impl old n x y : is_view c N o -> zlen b = N -> holds c o b old -> In n old -> is_nan n = true -> In x old -> In y old -> Bltb x y = true ->
  sort_increasing impl (@Bltb prec emax) c o b = UB /\ sort_decreasing impl (@Bltb prec emax) c o b = UB.
Proof.
  intros HV HB HO Hn Nn Hx Hy L. assert (~ strict_weak (@Bltb prec emax) old) as HW.
  { intros H. apply float_order_thm in H as [H|H]; [rewrite H in Nn by assumption; discriminate|rewrite H in L by assumption; discriminate]. }
  split; eapply sort_order_thm; eauto. intros H. apply HW. now apply (flip_weak (fun x y => Bltb y x)).
Qed.
Theorem float_sort_thm c N o b impl old : is_view c N o -> zlen b = N -> holds c o b old -> separate c o -> sorts impl -> (forall x, In x old -> is_nan x = false) ->
  exists binc bdec inc dec, sort_increasing impl (@Bltb prec emax) c o b = Ok binc /\ sort_decreasing impl (@Bltb prec emax) c o b = Ok bdec /\
    holds c o binc inc /\ holds c o bdec dec /\ Permutation old inc /\ Permutation old dec /\
    (forall i j x y, 0 <= i < j -> znth inc i = Some x -> znth inc j = Some y -> Bleb x y = true) /\
    (forall i j x y, 0 <= i < j -> znth dec i = Some x -> znth dec j = Some y -> Bleb y x = true).
Proof.
  intros HV HB HO HS HI HN. assert (strict_weak (@Bltb prec emax) old) as HW by (apply float_order_thm; auto).
  destruct (sort_thm c N o b _ impl old HV HB HO HS HI HW) as (b1 & n1 & E1 & _ & H1 & P1 & O1 & _).
  destruct (sort_thm c N o b _ impl old HV HB HO HS HI (flip_weak _ _ HW)) as (b2 & n2 & E2 & _ & H2 & P2 & O2 & _).
  exists b1, b2, n1, n2. repeat (split; [assumption|]).
  split; intros i j x y Hij Hx Hy.
  - apply ltb_false_leb; [| |eapply O1; eauto]; apply HN; eapply Permutation_in; try (apply Permutation_sym; exact P1); eapply znth_in; eauto.
  - apply ltb_false_leb; [| |exact (O2 _ _ _ _ Hij Hx Hy)]; apply HN; eapply Permutation_in; try (apply Permutation_sym; exact P2); eapply znth_in; eauto.
Qed.
End F.
