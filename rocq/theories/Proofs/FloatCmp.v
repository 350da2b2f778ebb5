(** Comparisons in IEEE arithmetic: minimum, maximum, tolerances. *)
From Coq Require Import ZArith Reals Lra Lia.
From Flocq Require Import Core BinarySingleNaN Plus_error.
From Verif Require Import Base.Outcome Base.ZList Model.Index Model.Array1D Model.Expr Model.Reduce Model.StableOps Model.FloatModel.
From Verif Require Import Spec.ExprSpec Spec.ReduceSpec Spec.NormSpec Spec.FloatSpec.
From Verif Require Import Proofs.ExprProofs Proofs.ReduceProofs Proofs.ReduceThms Proofs.StableLoops Proofs.FloatProofs Proofs.FloatSum Proofs.FloatAcc.
Local Open Scope R_scope.

Section FCMP.
Context (prec emax : Z) {Hp : Prec_gt_0 prec} {He : Prec_lt_emax prec emax}.
Notation flt := (binary_float prec emax).
Notation fexp := (SpecFloat.fexp prec emax).
Notation rnd := (round radix2 fexp ZnearestE).
Notation F := (fnum prec emax).
Notation top := (bpow radix2 emax).
Notation fzero := (FloatSpec.fzero prec emax).
Notation near := (FloatSpec.near prec emax).
Implicit Types x y z a b tol : flt.

(** Order embedding of the numbers including the infinities. *)
Definition ev x : R := match x with B754_infinity s => if s then - top else top | _ => B2R x end.
Lemma ev_fin x : is_finite x = true -> ev x = B2R x.
Proof. now destruct x. Qed.
Lemma B2R_lt_top x : Rabs (B2R x) < top.
Proof. apply abs_B2R_lt_emax. Qed.
Lemma top_pos : 0 < top. Proof. apply bpow_gt_0. Qed.
Lemma ltb_ev x y : is_nan x = false -> is_nan y = false -> Bltb x y = Rlt_bool (ev x) (ev y).
Proof.
  intros Hx Hy. pose proof top_pos as TP. pose proof (B2R_lt_top x) as BX. pose proof (B2R_lt_top y) as BY. apply Rabs_def2 in BX, BY.
  destruct (is_finite x) eqn:FX, (is_finite y) eqn:FY.
  - rewrite !ev_fin by assumption. now apply Bltb_correct.
  - rewrite (ev_fin x) by assumption. destruct y as [s|[|]| |s m e h]; try discriminate; destruct x as [sx|sx| |sx mx ex hx]; try discriminate; cbn [ev]; symmetry; cbn in *.
    + apply Rlt_bool_false. lra.
    + apply Rlt_bool_false. lra.
    + apply Rlt_bool_true. lra.
    + apply Rlt_bool_true. lra.
  - rewrite (ev_fin y) by assumption. destruct x as [s|[|]| |s m e h]; try discriminate; destruct y as [sx|sx| |sx mx ex hx]; try discriminate; cbn [ev]; symmetry; cbn in *.
    + apply Rlt_bool_true. lra.
    + apply Rlt_bool_true. lra.
    + apply Rlt_bool_false. lra.
    + apply Rlt_bool_false. lra.
  - destruct x as [s|[|]| |s m e h]; try discriminate; destruct y as [sx|[|]| |sx mx ex hx]; try discriminate; cbn [ev]; symmetry; cbn.
    + apply Rlt_bool_false. lra.
    + apply Rlt_bool_true. lra.
    + apply Rlt_bool_false. lra.
    + apply Rlt_bool_false. lra.
Qed.
Lemma leb_ev x y : is_nan x = false -> is_nan y = false -> Bleb x y = Rle_bool (ev x) (ev y).
Proof.
  intros Hx Hy. pose proof top_pos as TP. pose proof (B2R_lt_top x) as BX. pose proof (B2R_lt_top y) as BY. apply Rabs_def2 in BX, BY.
  destruct (is_finite x) eqn:FX, (is_finite y) eqn:FY.
  - rewrite !ev_fin by assumption. now apply Bleb_correct.
  - rewrite (ev_fin x) by assumption. destruct y as [s|[|]| |s m e h]; try discriminate; destruct x as [sx|sx| |sx mx ex hx]; try discriminate; cbn [ev]; symmetry; cbn in *.
    + apply Rle_bool_false. lra.
    + apply Rle_bool_false. lra.
    + apply Rle_bool_true. lra.
    + apply Rle_bool_true. lra.
  - rewrite (ev_fin y) by assumption. destruct x as [s|[|]| |s m e h]; try discriminate; destruct y as [sx|sx| |sx mx ex hx]; try discriminate; cbn [ev]; symmetry; cbn in *.
    + apply Rle_bool_true. lra.
    + apply Rle_bool_true. lra.
    + apply Rle_bool_false. lra.
    + apply Rle_bool_false. lra.
  - destruct x as [s|[|]| |s m e h]; try discriminate; destruct y as [sx|[|]| |sx mx ex hx]; try discriminate; cbn [ev]; symmetry; cbn.
    + apply Rle_bool_true. lra.
    + apply Rle_bool_true. lra.
    + apply Rle_bool_false. lra.
    + apply Rle_bool_true. lra.
Qed.
Lemma leb_args x y : Bleb x y = true -> is_nan x = false /\ is_nan y = false.
Proof. destruct x, y; try discriminate; now split. Qed.
Lemma leb_nan_l x y : is_nan x = true -> Bleb x y = false.
Proof. now destruct x. Qed.
Lemma leb_nan_r x y : is_nan y = true -> Bleb x y = false.
Proof. now destruct x, y. Qed.
Lemma ltb_nan_l x y : is_nan x = true -> Bltb x y = false.
Proof. now destruct x. Qed.
Lemma ltb_nan_r x y : is_nan y = true -> Bltb x y = false.
Proof. now destruct x, y. Qed.
Lemma leb_ev_true x y : Bleb x y = true <-> is_nan x = false /\ is_nan y = false /\ ev x <= ev y.
Proof.
  split.
  - intros H. destruct (leb_args x y H) as [A B]. rewrite leb_ev in H by assumption. repeat split; try assumption. revert H. case Rle_bool_spec; [trivial|discriminate].
  - intros (A & B & C). rewrite leb_ev by assumption. now apply Rle_bool_true.
Qed.
Lemma leb_trans x y z : Bleb x y = true -> Bleb y z = true -> Bleb x z = true.
Proof. rewrite !leb_ev_true. intros (A & B & C) (_ & D & E). repeat split; try assumption. lra. Qed.
Lemma leb_refl x : is_nan x = false -> Bleb x x = true.
Proof. intros H. apply leb_ev_true. repeat split; try assumption. lra. Qed.
Lemma ltb_leb x y : Bltb x y = true -> Bleb x y = true.
Proof.
  intros H. assert (is_nan x = false) by (destruct x; now try discriminate). assert (is_nan y = false) by (destruct x, y; now try discriminate).
  rewrite ltb_ev in H by assumption. apply leb_ev_true. repeat split; try assumption. revert H. case Rlt_bool_spec; [lra|discriminate].
Qed.
Lemma ltb_false_leb x y : is_nan x = false -> is_nan y = false -> Bltb x y = false -> Bleb y x = true.
Proof. intros A B H. rewrite ltb_ev in H by assumption. apply leb_ev_true. repeat split; try assumption. revert H. case Rlt_bool_spec; [discriminate|trivial]. Qed.

(** Largest and smallest. *)
Lemma fold_max l : forall x, is_nan x = false -> let v := fold_left (fun m y => if ngt F y m then y else m) l x in
  is_nan v = false /\ In v (x :: l) /\ forall y, In y (x :: l) -> is_nan y = false -> Bleb y v = true.
Proof.
  induction l as [|y l IH]; intros x Hx; cbn [fold_left].
  - repeat split; [exact Hx|now left|]. intros y [<-|[]] _. now apply leb_refl.
  - change (ngt F y x) with (Bltb x y). destruct (Bltb x y) eqn:E.
    + assert (Hy : is_nan y = false) by (destruct y; try reflexivity; now rewrite ltb_nan_r in E by reflexivity).
      destruct (IH y Hy) as (I1 & I2 & I3). repeat split; [exact I1|now right|]. intros z [<-|Hz] Nz; [|now apply I3]. apply leb_trans with y; [now apply ltb_leb|apply I3; [now left|assumption]].
    + destruct (IH x Hx) as (I1 & I2 & I3). repeat split; [exact I1|destruct I2 as [I2|I2]; [now left|now right; right]|]. intros z [<-|[<-|Hz]] Nz; [apply I3; [now left|assumption]| |apply I3; [now right|assumption]].
      apply leb_trans with x; [now apply ltb_false_leb|]. apply I3; [now left|assumption].
Qed.
Lemma fold_min l : forall x, is_nan x = false -> let v := fold_left (fun m y => if nlt F y m then y else m) l x in
  is_nan v = false /\ In v (x :: l) /\ forall y, In y (x :: l) -> is_nan y = false -> Bleb v y = true.
Proof.
  induction l as [|y l IH]; intros x Hx; cbn [fold_left].
  - repeat split; [exact Hx|now left|]. intros y [<-|[]] _. now apply leb_refl.
  - change (nlt F y x) with (Bltb y x). destruct (Bltb y x) eqn:E.
    + assert (Hy : is_nan y = false) by (destruct y; try reflexivity; now rewrite ltb_nan_l in E by reflexivity).
      destruct (IH y Hy) as (I1 & I2 & I3). repeat split; [exact I1|now right|]. intros z [<-|Hz] Nz; [|now apply I3]. apply leb_trans with y; [apply I3; [now left|assumption]|now apply ltb_leb].
    + destruct (IH x Hx) as (I1 & I2 & I3). repeat split; [exact I1|destruct I2 as [I2|I2]; [now left|now right; right]|]. intros z [<-|[<-|Hz]] Nz; [apply I3; [now left|assumption]| |apply I3; [now right|assumption]].
      apply leb_trans with x; [|now apply ltb_false_leb]. apply I3; [now left|assumption].
Qed.
Theorem max_nonan (A : src1 flt) x l d : yields A (map Ok (x :: l)) -> is_nan x = false ->
  exists v, r_max (ngt F) A d = Ok v /\ is_nan v = false /\ In v (x :: l) /\ forall y, In y (x :: l) -> is_nan y = false -> Bleb y v = true.
Proof.
  intros HA HX. unfold r_max. rewrite (fold_ok _ A _ d HA). cbn [map bind]. rewrite foldo_pure. eexists. split; [reflexivity|]. exact (fold_max l x HX).
Qed.
Theorem min_nonan (A : src1 flt) x l d : yields A (map Ok (x :: l)) -> is_nan x = false ->
  exists v, r_min (nlt F) A d = Ok v /\ is_nan v = false /\ In v (x :: l) /\ forall y, In y (x :: l) -> is_nan y = false -> Bleb v y = true.
Proof.
  intros HA HX. unfold r_min. rewrite (fold_ok _ A _ d HA). cbn [map bind]. rewrite foldo_pure. eexists. split; [reflexivity|]. exact (fold_min l x HX).
Qed.
Theorem minmax_nan (A : src1 flt) x l d : yields A (map Ok (x :: l)) -> is_nan x = true ->
  r_max (ngt F) A d = Ok B754_nan /\ r_min (nlt F) A d = Ok B754_nan.
Proof.
  intros HA HX. assert (x = B754_nan) as -> by now destruct x. split.
  - apply (best_sticks (ngt F) A B754_nan l d); [|exact HA]. intros y _. reflexivity.
  - apply (best_sticks (nlt F) A B754_nan l d); [|exact HA]. intros y _. change (Bltb y B754_nan = false). now apply ltb_nan_r.
Qed.

(** Absolute values. *)
Lemma nabs_nan x : is_nan (nabs F x) = is_nan x.
Proof. unfold nabs. destruct (ngt F x (nzero F)); [reflexivity|]. now destruct x. Qed.
Lemma ev_nabs x : is_nan x = false -> ev (nabs F x) = Rabs (ev x).
Proof.
  intros H. unfold nabs. change (ngt F x (nzero F)) with (Bltb (B754_zero false) x). rewrite ltb_ev by trivial. cbn [ev B2R]. case Rlt_bool_spec; intros L.
  - now rewrite Rabs_pos_eq by lra.
  - change (nneg F x) with (Bopp x). rewrite Rabs_left1 by lra. destruct x as [s|s| |s m e h]; try discriminate; cbn [Bopp ev].
    + cbn. lra.
    + destruct s; cbn; lra.
    + change (B754_finite (negb s) m e h) with (Bopp (B754_finite s m e h)). apply B2R_Bopp.
Qed.
Lemma Babs_nan x : is_nan (Babs x) = is_nan x.
Proof. now destruct x. Qed.
Lemma ev_Babs x : is_nan x = false -> ev (Babs x) = Rabs (ev x).
Proof.
  intros H. destruct x as [s|s| |s m e h]; try discriminate; cbn [Babs ev].
  - cbn. now rewrite Rabs_R0.
  - pose proof top_pos. destruct s; [rewrite Rabs_Ropp|]; rewrite Rabs_pos_eq; lra.
  - change (B754_finite false m e h) with (Babs (B754_finite s m e h)). apply B2R_Babs.
Qed.
Lemma leb_nabs x y : Bleb (nabs F x) y = Bleb (Babs x) y.
Proof.
  destruct (is_nan x) eqn:HX. { rewrite !leb_nan_l; [reflexivity|now rewrite Babs_nan|now rewrite nabs_nan]. }
  destruct (is_nan y) eqn:HY. { now rewrite !leb_nan_r. }
  rewrite !leb_ev by (trivial; now rewrite ?Babs_nan, ?nabs_nan). now rewrite ev_nabs, ev_Babs.
Qed.
Lemma leb_nabs_r x y : Bleb x (nabs F y) = Bleb x (Babs y).
Proof.
  destruct (is_nan y) eqn:HY. { rewrite !leb_nan_r; [reflexivity|now rewrite Babs_nan|now rewrite nabs_nan]. }
  destruct (is_nan x) eqn:HX. { now rewrite !leb_nan_l. }
  rewrite !leb_ev by (trivial; now rewrite ?Babs_nan, ?nabs_nan). now rewrite ev_nabs, ev_Babs.
Qed.
Lemma map_abs l : map (fun v : outcome flt => bind v (fun x => Ok (nabs F x))) (map Ok l) = map Ok (map (nabs F) l).
Proof. rewrite !map_map. reflexivity. Qed.
Lemma zlen_nonzero {V} (l : list V) : l <> [] -> (zlen l =? 0)%Z = false.
Proof. destruct l as [|x l]; [contradiction|]. intros _. rewrite zlen_cons. pose proof (zlen_nonneg l). lia. Qed.
Theorem norm_inf_nonan (A : src1 flt) x l d : yields A (map Ok (x :: l)) -> is_nan x = false ->
  exists v, norm_inf F A d = Ok v /\ is_nan v = false /\ (exists y, In y (x :: l) /\ is_nan y = false /\ Beqb v (Babs y) = true) /\
    forall y, In y (x :: l) -> is_nan y = false -> Bleb (Babs y) v = true.
Proof.
  intros HA HX. unfold norm_inf, r_norm_inf. pose proof HA as (E & _ & _). rewrite zlen_map in E. rewrite E, zlen_nonzero by discriminate.
  pose proof (un_ok (fun x => Ok (nabs F x)) A _ HA) as HU. rewrite map_abs in HU. cbn [map] in HU.
  destruct (max_nonan _ (nabs F x) (map (nabs F) l) (nzero F) HU) as (v & E1 & E2 & E3 & E4). { now rewrite nabs_nan. }
  exists v. split; [exact E1|]. split; [exact E2|]. split.
  - change (In v (map (nabs F) (x :: l))) in E3. apply in_map_iff in E3. destruct E3 as (y & <- & Hy). exists y. split; [exact Hy|]. rewrite nabs_nan in E2. split; [exact E2|].
    assert (L1 : Bleb (nabs F y) (Babs y) = true) by (rewrite leb_nabs; apply leb_refl; now rewrite Babs_nan).
    assert (L2 : Bleb (Babs y) (nabs F y) = true) by (rewrite leb_nabs_r; apply leb_refl; now rewrite Babs_nan).
    clear - L1 L2. unfold Bleb, SpecFloat.SFleb in *. unfold Beqb, SpecFloat.SFeqb.
    revert L1 L2. generalize (B2SF (nabs F y)) (B2SF (Babs y)). intros a b. 
    assert (SW : SpecFloat.SFcompare b a = match SpecFloat.SFcompare a b with Some q => Some (CompOpp q) | None => None end).
    { destruct a as [s|s| |s m e], b as [s'|s'| |s' m' e']; try destruct s; try destruct s'; try reflexivity; cbn;
      change (Pos.compare_cont Eq m' m) with (m' ?= m)%positive; change (Pos.compare_cont Eq m m') with (m ?= m')%positive; rewrite (Z.compare_antisym e e'), (Pos.compare_antisym m m'); destruct (e ?= e')%Z, (m ?= m')%positive; reflexivity. }
    rewrite SW. destruct (SpecFloat.SFcompare a b) as [[]|]; cbn; congruence.
  - intros y Hy Ny. rewrite <- leb_nabs. apply E4; [|now rewrite nabs_nan]. change (In (nabs F y) (map (nabs F) (x :: l))). now apply in_map.
Qed.
End FCMP.
