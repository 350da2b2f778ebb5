(** Accuracy of the stable polynomials against the exact value. *)
From Coq Require Import ZArith Reals Lra Lia.
From Flocq Require Import Core BinarySingleNaN.
From Verif Require Import Base.Outcome Base.ZList Model.IntModel Model.Index Model.Array1D Model.Expr Model.Reduce Model.StableOps Model.FloatModel.
From Verif Require Import Spec.ExprSpec Spec.ReduceSpec Spec.NormSpec Spec.StableSpec Spec.DualSpec Spec.FloatSpec Spec.LpSpec.
From Verif Require Import Proofs.ExprProofs Proofs.ExprMore Proofs.StableLoops Proofs.FloatProofs Proofs.FloatSum Proofs.FloatAcc Proofs.StablePoly Proofs.LpProofs Proofs.FloatPoly Proofs.FloatPow.
Import ListNotations.
Local Open Scope R_scope.
Lemma power_pow x n : power 1 Rmult x n = x ^ n. Proof. induction n as [|n IH]; cbn; [reflexivity|]. now rewrite IH. Qed.
Lemma rsum_c x l : rsum (x :: l) = x + rsum l. Proof. reflexivity. Qed.
Lemma norm1_c x l : norm1 (x :: l) = Rabs x + norm1 l. Proof. reflexivity. Qed.
Lemma terms_close E cs : 0 <= E -> forall (prs : list (R * R)) xs ps, length prs = length cs -> length xs = length cs -> length ps = length cs ->
  (forall i q x p, znth prs i = Some q -> znth xs i = Some x -> znth ps i = Some p -> Rabs (fst q + snd q - x ^ Z.to_nat p) <= E * Rabs x ^ Z.to_nat p /\ Rabs (fst q) <= 2 * Rabs x ^ Z.to_nat p) ->
  let t := gpoly_terms 1 Rmult cs xs ps in
  Rabs (rsum (pair_terms Rplus Rmult cs prs) - rsum t) <= E * norm1 t /\ norm1 (products Rmult cs (map fst prs)) + norm1 (products Rmult cs (map snd prs)) <= (5 + E) * norm1 t.
Proof.
  intros HE. induction cs as [|a cs IH]; intros [|q prs] [|x xs] [|p ps] L1 L2 L3 H; try discriminate.
  - unfold norm1, rsum, total. cbn. rewrite Rminus_0_r, Rabs_R0. lra.
  - injection L1 as L1. injection L2 as L2. injection L3 as L3. cbn [gpoly_terms pair_terms products map]. rewrite power_pow, !norm1_c, !rsum_c, !Rabs_mult.
    destruct (H 0%Z q x p eq_refl eq_refl eq_refl) as [H1 H2]. destruct (IH prs xs ps L1 L2 L3) as [I1 I2].
    { intros i q' x' p' A B C. assert (0 <= i)%Z by (destruct (znth_lt _ _ _ A); lia). apply (H (i + 1)%Z); rewrite znth_cons_pos by lia; replace (i + 1 - 1)%Z with i by lia; assumption. }
    rewrite RPow_abs in H1, H2. set (X := Rabs (x ^ Z.to_nat p)) in *. pose proof (Rabs_pos a) as A0. split.
    + replace (a * (fst q + snd q) + rsum (pair_terms Rplus Rmult cs prs) - (a * x ^ Z.to_nat p + rsum (gpoly_terms 1 Rmult cs xs ps))) with
        (a * (fst q + snd q - x ^ Z.to_nat p) + (rsum (pair_terms Rplus Rmult cs prs) - rsum (gpoly_terms 1 Rmult cs xs ps))) by ring.
      eapply Rle_trans; [apply Rabs_triang|]. rewrite Rabs_mult. assert (Rabs a * Rabs (fst q + snd q - x ^ Z.to_nat p) <= Rabs a * (E * X)) by now apply Rmult_le_compat_l. lra.
    + assert (S1 : Rabs (snd q) <= (3 + E) * X).
      { replace (snd q) with ((fst q + snd q - x ^ Z.to_nat p) + (x ^ Z.to_nat p - fst q)) by ring. eapply Rle_trans; [apply Rabs_triang|]. assert (Rabs (x ^ Z.to_nat p - fst q) <= X + Rabs (fst q)).
        { unfold Rminus. eapply Rle_trans; [apply Rabs_triang|]. rewrite Rabs_Ropp. fold X. lra. } lra. }
      assert (Rabs a * (Rabs (fst q) + Rabs (snd q)) <= Rabs a * ((5 + E) * X)) by (apply Rmult_le_compat_l; lra). lra.
Qed.

Section POLY.
Context (prec emax : Z) (Hp : Prec_gt_0 prec) (He : Prec_lt_emax prec emax) (P2 : (1 < prec)%Z) (P3 : (prec + 3 <= emax)%Z).
Notation F := (fnum prec emax).
Notation flt := (binary_float prec emax).
Notation reals := (reals prec emax).
Notation u := (uro prec).
Lemma products_args l : forall k : list flt, length l = length k -> Forall (fun h => is_finite h = true) (products (fmul prec emax) l k) -> Forall (fun h => is_finite h = true) k.
Proof.
  induction l as [|a l IH]; intros [|b k] HL H; try discriminate; constructor; inversion H as [|? ? H1 H2]; subst; [now destruct (mult_args prec emax _ _ H1)|]. apply IH; [now injection HL|exact H2].
Qed.
Lemma dot_args c A B l k d (v : flt) : yields A (map Ok l) -> yields B (map Ok k) -> zlen l = zlen k -> l <> [] -> no_underflows prec emax l k ->
  stable_dot_prod F c A B d = Ok v -> is_finite v = true -> Forall (fun h => is_finite h = true) k.
Proof.
  intros HA HB HL HN HU HV HF. destruct (stable_dot_float prec emax P2 c A B l k d v HA HB HL HN HU HV HF) as (h & hs & q & r & qs & rs & E1 & E2 & E3 & E4 & E5 & E6).
  rewrite E5 in HF. apply (plus_args prec emax) in HF. destruct HF as [HS HQ]. apply (products_args l); [unfold zlen in HL; lia|].
  rewrite E1. constructor; [apply (sums_finite_head _ _ _ _ (fsum_finite_all _ _ _ _ HS))|]. now apply (fsum_terms_finite prec emax hs h).
Qed.
Theorem gpoly_acc c (A X : src1 flt) (P : src1 Z) cs xs ps prs d v Q : yields A (map Ok cs) -> yields X (map Ok xs) -> yields P (map Ok ps) ->
  zlen cs = zlen xs -> cs <> [] -> Forall (fun p => 0 <= p <= Q)%Z ps -> (Q <= LONG_MAX)%Z -> 8 * (IZR Q * u) <= 1 -> pow_pairs F c xs ps prs -> (2 * zlen cs <= LONG_MAX)%Z ->
  (forall i x p, znth xs i = Some x -> znth ps i = Some p -> B2R x = 0 \/ bpow radix2 (3 - emax + prec) <= Rabs (B2R x) ^ Z.to_nat p) ->
  no_underflows prec emax (cs ++ cs) (map fst prs ++ map snd prs) ->
  stable_gpolynomial F c A X P d = Ok v -> is_finite v = true ->
  let G := (1 + u) ^ (2 * length cs) - 1 in let T := gpoly_terms 1 Rmult (reals cs) (reals xs) ps in
  Rabs (B2R v - rsum T) <= u * Rabs (rsum T) + (1 + u) * (4 * (IZR Q * u * (IZR Q * u)) + 6 * (G * G)) * norm1 T.
Proof.
  intros HA HX HP HL HN HF HQ HQU HPP HM HXU HU HV HFin G T. pose proof HPP as (L1 & L2 & L3). pose proof (u_pos prec) as U.
  assert (length cs = length prs) as LC by (unfold zlen in *; lia).
  assert (FR : Forall (fun h => is_finite h = true) (map fst prs ++ map snd prs)).
  { assert (zlen (cs ++ cs) <= LONG_MAX)%Z as B1 by (rewrite zlen_app; lia). assert (zlen (map fst prs ++ map snd prs) = zlen (cs ++ cs)) as B2 by (rewrite !zlen_app, !zlen_map; unfold zlen in *; lia).
    pose proof HV as HV'. rewrite (stable_gpoly_value F c A X P (lsrc (cs ++ cs)) (lsrc (map fst prs ++ map snd prs)) cs xs ps prs d) in HV'; try assumption; try (apply lsrc_yields; lia); [|eapply Forall_impl; [|exact HF]; cbn; lia].
    apply (dot_args c _ _ (cs ++ cs) _ _ v (lsrc_yields _ B1) (lsrc_yields _ (Z.le_trans _ _ _ (Z.eq_le_incl _ _ B2) B1)) (eq_sym B2) ltac:(destruct cs; [congruence|discriminate]) HU HV' HFin). }
  pose proof (stable_gpoly_acc prec emax Hp He P2 c A X P cs xs ps prs d v HA HX HP HL HN ltac:(eapply Forall_impl; [|exact HF]; cbn; lia) HPP HM HU HV HFin) as HB. cbv zeta in HB.
  set (E := 4 * (IZR Q * u * (IZR Q * u))). assert (Q0 : 0 <= IZR Q).
  { apply IZR_le. destruct ps as [|p ps]; [exfalso; destruct cs; [congruence|]; unfold zlen in HL; cbn in *; lia|]. inversion HF; subst. lia. }
  assert (QU : 0 <= IZR Q * u) by nra. assert (E0 : 0 <= E <= 1) by (unfold E; nra).
  destruct (terms_close E (reals cs) (proj1 E0) (map (rpair prec emax) prs) (reals xs) ps) as [T1 T2]; try (unfold FloatSpec.reals; rewrite ?map_length; unfold zlen in *; lia).
  { intros i q x p Hq Hx Hp'. unfold FloatSpec.reals in Hx. rewrite znth_map in Hq. rewrite znth_map in Hx. destruct (znth prs i) as [q0|] eqn:EQ; [|discriminate]. destruct (znth xs i) as [x0|] eqn:EX; [|discriminate]. injection Hq as <-. injection Hx as <-.
    destruct (L3 i x0 p EX Hp') as (q1 & EQ1 & EP). rewrite EQ in EQ1. injection EQ1 as <-. destruct q0 as [r s].
    rewrite Forall_app, !Forall_map, !Forall_forall in FR. pose proof (znth_in _ _ _ EQ) as IN. destruct FR as [F1 F2]. specialize (F1 _ IN). specialize (F2 _ IN). cbn [fst snd] in F1, F2.
    rewrite Forall_forall in HF. pose proof (HF p (znth_in _ _ _ Hp')) as HPB. cbn beta in HPB. assert (P0 : 0 <= IZR p <= IZR Q) by (split; apply IZR_le; lia). assert (PU : 0 <= IZR p * u <= IZR Q * u) by nra.
    destruct (pow_acc prec emax P2 P3 c x0 p r s ltac:(lia) ltac:(lra) (HXU i x0 p EX Hp') EP F1 F2) as [A1 A2]. split; [|exact A2]. cbn [rpair fst snd]. eapply Rle_trans; [exact A1|]. unfold E.
    assert (0 <= Rabs (B2R x0) ^ Z.to_nat p) by apply pow_le, Rabs_pos. assert (IZR p * u * (IZR p * u) <= IZR Q * u * (IZR Q * u)) by (apply Rmult_le_compat; lra). nra. }
  cbv zeta in T1, T2. fold T in T1, T2. set (t := pair_terms Rplus Rmult (reals cs) (map (rpair prec emax) prs)) in *.
  replace (map fst (map (rpair prec emax) prs)) with (reals (map fst prs)) in T2 by (unfold FloatSpec.reals; rewrite !map_map; reflexivity). replace (map snd (map (rpair prec emax) prs)) with (reals (map snd prs)) in T2 by (unfold FloatSpec.reals; rewrite !map_map; reflexivity).
  fold G in HB. set (W := norm1 (products Rmult (reals cs) (reals (map fst prs))) + norm1 (products Rmult (reals cs) (reals (map snd prs)))) in *.
  assert (N0 : 0 <= norm1 T) by apply norm1_nonneg. assert (G0 : 0 <= (1 + u) * (G * G)) by nra. assert (W6 : W <= 6 * norm1 T) by nra.
  assert (HW : (1 + u) * (G * G) * W <= (1 + u) * (G * G) * (6 * norm1 T)) by now apply Rmult_le_compat_l.
  assert (HT : Rabs (rsum t) <= Rabs (rsum T) + E * norm1 T). { replace (rsum t) with (rsum T + (rsum t - rsum T)) by ring. eapply Rle_trans; [apply Rabs_triang|]. lra. }
  replace (B2R v - rsum T) with ((B2R v - rsum t) + (rsum t - rsum T)) by ring. eapply Rle_trans; [apply Rabs_triang|].
  assert (u * Rabs (rsum t) <= u * (Rabs (rsum T) + E * norm1 T)) by (apply Rmult_le_compat_l; lra). fold E. nra.
Qed.
Theorem norm_lp_acc c pow (A : src1 flt) l p prs d v : yields A (map Ok l) -> l <> [] -> Forall (fun x => is_finite x = true) l -> (0 < p <= LONG_MAX)%Z -> 8 * (IZR p * u) <= 1 -> (2 * zlen l <= LONG_MAX)%Z ->
  pow_pairs F c (map (nabs F) l) (map (fun _ => p) l) prs ->
  Forall (fun x => B2R x = 0 \/ bpow radix2 (3 - emax + prec) <= Rabs (B2R x) ^ Z.to_nat p) l ->
  Forall (fun q => no_underflow prec emax Bone (fst q) /\ no_underflow prec emax Bone (snd q)) prs ->
  stable_norm_lp F c pow A p d = Ok v ->
  exists s, v = pow s (ninvs F (nofZ F p)) /\ (is_finite s = true ->
    let G := (1 + u) ^ (2 * length l) - 1 in Rabs (B2R s - lp_sum p (reals l)) <= (u + (1 + u) * (4 * (IZR p * u * (IZR p * u)) + 6 * (G * G))) * lp_sum p (reals l)).
Proof.
  intros HA HN HFin Hp' HPU HL HPP HX HU HV. pose proof HA as (EA & _). rewrite zlen_map in EA. unfold stable_norm_lp in HV. replace (0 <? p)%Z with true in HV by lia. rewrite check_debug_true in HV. cbn [bind] in HV. rewrite EA in HV.
  assert (0 < zlen l)%Z by (destruct l; [congruence|]; unfold zlen; cbn; lia). replace (zlen l =? 0)%Z with false in HV by lia.
  destruct (const1_ok c (none_ F) (zlen l) ltac:(lia)) as (C & EC & HC). rewrite EC in HV. cbn [bind] in HV. destruct (const1_ok c p (zlen l) ltac:(lia)) as (P & EP & HPS). rewrite EP in HV. cbn [bind] in HV.
  rewrite (const_list _ l) in HC. rewrite (const_list p l) in HPS. pose proof (un_ok (fun x => Ok (nabs F x)) A _ HA) as HUA. rewrite map_map in HUA. cbn [bind] in HUA. rewrite <- (map_map (nabs F) Ok) in HUA.
  match type of HV with bind ?e _ = _ => destruct e as [s| |] eqn:ES; try discriminate end. cbn [bind] in HV. injection HV as <-. exists s. split; [reflexivity|]. intros Fs G.
  assert (NU : no_underflows prec emax (map (fun _ => none_ F) l ++ map (fun _ => none_ F) l) (map fst prs ++ map snd prs)).
  { destruct HPP as (_ & L2 & _). rewrite map_length in L2.
    assert (NA : forall (a b a' b' : list flt), length a = length b -> no_underflows prec emax a b -> no_underflows prec emax a' b' -> no_underflows prec emax (a ++ a') (b ++ b')).
    { clear. induction a as [|x a IH]; intros [|y b] a' b' E H H'; try discriminate; [exact H'|]. destruct H as [H1 H2]. split; [exact H1|]. apply IH; [now injection E|assumption..]. }
    assert (NC : forall f : flt * flt -> flt, Forall (fun q => no_underflow prec emax Bone (f q)) prs -> no_underflows prec emax (map (fun _ => none_ F) l) (map f prs)).
    { intros f Hf. clear -Hf. revert l. induction prs as [|q prs IH]; intros [|x l]; try exact I. inversion Hf; subst. split; [assumption|]. now apply IH. }
    apply NA; [rewrite !map_length; lia| |]; apply NC; eapply Forall_impl; [|exact HU| |exact HU]; cbn; tauto. }
  assert (EQ : gpoly_terms 1 Rmult (reals (map (fun _ => none_ F) l)) (reals (map (nabs F) l)) (map (fun _ => p) l) = map (fun x => Rabs x ^ Z.to_nat p) (reals l)).
  { clear -HFin. induction HFin as [|x l Fx HFin IH]; [reflexivity|]. cbn. rewrite power_pow. f_equal; [|exact IH]. change (@Bone prec emax Hp He) with (none_ F). rewrite one_val, (proj2 (nabs_fin prec emax x Fx)). ring. }
  assert (NN : forall l : list R, norm1 (map (fun x => Rabs x ^ Z.to_nat p) l) = rsum (map (fun x => Rabs x ^ Z.to_nat p) l) /\ 0 <= rsum (map (fun x => Rabs x ^ Z.to_nat p) l)).
  { clear. induction l as [|x l [I1 I2]]; [unfold norm1, rsum, total; cbn; lra|]. cbn [map]. rewrite norm1_c, rsum_c, I1. assert (0 <= Rabs x ^ Z.to_nat p) by apply pow_le, Rabs_pos. rewrite Rabs_pos_eq by assumption. lra. }
  pose proof (gpoly_acc c C _ P (map (fun _ => none_ F) l) (map (nabs F) l) (map (fun _ => p) l) prs (nzero F) s p HC HUA HPS) as HG.
  rewrite EQ in HG. cbv zeta in HG. rewrite map_length in HG. fold G in HG. destruct (NN (reals l)) as [N1 N2]. rewrite N1 in HG. fold (lp_sum p (reals l)) in HG, N2. rewrite (Rabs_pos_eq (lp_sum p (reals l))) in HG by exact N2.
  rewrite Rmult_plus_distr_r. apply HG; try assumption.
  - rewrite !zlen_map. reflexivity.
  - destruct l; [congruence|discriminate].
  - apply Forall_forall. intros q Hq. apply in_map_iff in Hq. destruct Hq as (? & <- & _). lia.
  - lia.
  - rewrite zlen_map. exact HL.
  - intros i x q Hx Hq. rewrite znth_map in Hx. rewrite znth_map in Hq. destruct (znth l i) as [y|] eqn:EY; [|discriminate]. injection Hx as <-. injection Hq as <-. apply znth_in in EY. rewrite Forall_forall in HX, HFin.
    rewrite (proj2 (nabs_fin prec emax y (HFin y EY))). destruct (HX y EY) as [Z0|Z0]; [left; rewrite Z0; apply Rabs_R0|right]. now rewrite Rabs_Rabsolu.
Qed.
End POLY.
