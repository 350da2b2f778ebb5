(** Accuracy of the stable polynomials in floating point. *)
From Coq Require Import ZArith Reals Lra Lia.
From Flocq Require Import Core BinarySingleNaN.
From Verif Require Import Base.Outcome Base.ZList Model.IntModel Model.Index Model.Array1D Model.Expr Model.Reduce Model.StableOps Model.FloatModel.
From Verif Require Import Spec.ExprSpec Spec.ReduceSpec Spec.NormSpec Spec.StableSpec Spec.DualSpec Spec.FloatSpec Spec.LpSpec.
From Verif Require Import Proofs.ExprMore Proofs.StableLoops Proofs.ExactProofs Proofs.FloatProofs Proofs.FloatSum Proofs.FloatAcc Proofs.StablePoly Proofs.LpProofs.
Local Open Scope Z_scope.
Section FLOAT.
Context (prec emax : Z) (Hp : Prec_gt_0 prec) (He : Prec_lt_emax prec emax) (P2 : 1 < prec).
Notation F := (fnum prec emax).
Notation reals := (reals prec emax).
Definition rpair (q : binary_float prec emax * binary_float prec emax) : R * R := (B2R (fst q), B2R (snd q)).
Theorem stable_gpoly_acc c (A X : src1 (binary_float prec emax)) (P : src1 Z) cs xs ps prs d v : yields A (map Ok cs) -> yields X (map Ok xs) -> yields P (map Ok ps) ->
  zlen cs = zlen xs -> cs <> [] -> Forall (fun p => 0 <= p) ps -> pow_pairs F c xs ps prs -> 2 * zlen cs <= LONG_MAX ->
  no_underflows prec emax (cs ++ cs) (map fst prs ++ map snd prs) ->
  stable_gpolynomial F c A X P d = Ok v -> is_finite v = true ->
  let u := uro prec in let G := ((1 + u) ^ (2 * length cs) - 1)%R in let t := pair_terms Rplus Rmult (reals cs) (map rpair prs) in
  (Rabs (B2R v - rsum t) <= u * Rabs (rsum t) + (1 + u) * (G * G) * (norm1 (products Rmult (reals cs) (reals (map fst prs))) + norm1 (products Rmult (reals cs) (reals (map snd prs)))))%R.
Proof.
  intros HA HX HP HL HN HF HQ HM HU HV HFin u G t. pose proof HQ as (L1 & L2 & _).
  assert (zlen (cs ++ cs) <= LONG_MAX) as B1 by (rewrite zlen_app; lia). assert (zlen (map fst prs ++ map snd prs) = zlen (cs ++ cs)) as B2 by (rewrite !zlen_app, !zlen_map; unfold zlen in *; lia).
  assert (length cs = length prs) as LC by (unfold zlen in *; lia).
  rewrite (stable_gpoly_value F c A X P (lsrc (cs ++ cs)) (lsrc (map fst prs ++ map snd prs)) cs xs ps prs d) in HV; try assumption; try (apply lsrc_yields; lia).
  pose proof (stable_dot_acc prec emax P2 c _ _ (cs ++ cs) (map fst prs ++ map snd prs) _ v (lsrc_yields _ B1) (lsrc_yields _ (Z.le_trans _ _ _ (Z.eq_le_incl _ _ B2) B1)) (eq_sym B2) ltac:(destruct cs; [congruence|discriminate]) HU HV HFin) as H.
  unfold FloatSpec.reals in H. rewrite !map_app in H. fold (reals cs) in H. fold (reals (map fst prs)) in H. fold (reals (map snd prs)) in H.
  rewrite app_length in H. replace (length cs + length cs)%nat with (2 * length cs)%nat in H by lia.
  assert (rsum (products Rmult (reals cs ++ reals cs) (reals (map fst prs) ++ reals (map snd prs))) = rsum t) as E1.
  { pose proof (products_pairs rnum rnum_exact (reals cs) (map rpair prs)) as E. cbn [rnum nadd nzero nmul] in E. unfold rsum, t. rewrite <- E by (unfold FloatSpec.reals; rewrite !map_length; exact LC). do 2 f_equal. unfold FloatSpec.reals. rewrite !map_map. reflexivity. }
  assert (forall l k l' k' : list R, length l = length k -> products Rmult (l ++ l') (k ++ k') = products Rmult l k ++ products Rmult l' k') as PA.
  { clear. induction l as [|x l IH]; intros [|y k] l' k' H; cbn in *; try discriminate; [reflexivity|]. f_equal. apply IH. congruence. }
  assert (forall l k, norm1 (l ++ k) = norm1 l + norm1 k)%R as NA.
  { clear. intros l k. unfold norm1, rsum, total. induction l as [|x l IH]; cbn; [lra|]. rewrite IH. lra. }
  rewrite E1 in H. rewrite PA, NA in H by (unfold FloatSpec.reals; rewrite !map_length; exact LC). exact H.
Qed.
End FLOAT.
