(** The stable reductions over exact arithmetic, and the compensated power. *)
From Coq Require Import Ring_theory Ring.
From Verif Require Import Base.Outcome Base.ZList Model.IntModel Model.Index Model.Slice Model.Array1D Model.Array2D Model.View2D Model.Expr Model.Reduce Model.StableOps.
From Verif Require Import Spec.ArraySpec Spec.SliceSpec Spec.ExprSpec Spec.ReduceSpec Spec.StableSpec.
From Verif Require Import Proofs.Array1DProofs Proofs.SliceProofs Proofs.ExprProofs Proofs.ExprMore Proofs.ReduceProofs Proofs.ReduceThms Proofs.StableLoops.
Ltac Zify.zify_post_hook ::= Z.div_mod_to_equations.

Section EXACT.
Context {V : Type} (N : num V) (c : cfg).
Hypothesis HX : exact_num N.
Let RT := ex_ring N HX.
Add Ring NR : RT.
Implicit Types (l k : list V) (A B : src1 V) (x y : V).
Notation "x + y" := (nadd N x y).
Notation "x * y" := (nmul N x y).
Notation "x - y" := (nsub N x y).
Notation "- x" := (nneg N x).
Notation O0 := (nzero N).
Notation I1 := (none_ N).
Notation sum := (total (nadd N) (nzero N)).
Notation prod := (total (nmul N) (none_ N)).

Lemma sum_step_exact s co x : sum_step N (s, co) x = (s + x, co).
Proof. unfold sum_step. destruct (nge N (nabs N s) (nabs N x)); f_equal; ring. Qed.
Lemma fold_sum_step l s co : fold_left (sum_step N) l (s, co) = (fold_left (nadd N) l s, co).
Proof. revert s. induction l as [|x l IH]; intros s; [reflexivity|]. cbn [fold_left]. rewrite sum_step_exact. apply IH. Qed.
Lemma fold_add l s : fold_left (nadd N) l s = s + sum l.
Proof. revert s. induction l as [|x l IH]; intros s; cbn; [ring|]. rewrite IH. unfold total. ring. Qed.
Lemma fold_mul l s : fold_left (nmul N) l s = s * prod l.
Proof. revert s. induction l as [|x l IH]; intros s; cbn; [ring|]. rewrite IH. unfold total. ring. Qed.
Lemma sum_app l k : sum (l ++ k) = sum l + sum k.
Proof. unfold total. induction l as [|x l IH]; cbn; [ring|]. rewrite IH. ring. Qed.
Lemma sum_rev l : sum (rev l) = sum l.
Proof. induction l as [|x l IH]; [reflexivity|]. cbn [rev]. rewrite sum_app, IH. unfold total. cbn. ring. Qed.
Lemma two_prods_exact x y : two_prods N x y = (x * y, O0).
Proof. unfold two_prods. f_equal. rewrite (ex_fma N HX). ring. Qed.
Lemma two_sums_exact x y : two_sums N x y = (x + y, O0).
Proof. unfold two_sums. f_equal. ring. Qed.

Lemma stable_sum_exact A l d : yields A (map Ok l) -> l <> [] -> stable_sum N A d = Ok (sum l).
Proof. intros HA HN. rewrite (stable_sum_loop N A l d HA HN), fold_sum_step. unfold fin. cbn [fst snd]. rewrite fold_add. f_equal. ring. Qed.

Lemma fold_dot_exact l k p : fold_left (dot_step N) (combine l k) (p, O0) = (p + sum (products (nmul N) l k), O0).
Proof.
  revert k p. induction l as [|x l IH]; intros [|y k] p; cbn [combine fold_left products]; try (f_equal; cbn; ring).
  unfold dot_step at 2. cbn [fst snd]. rewrite two_prods_exact, two_sums_exact. replace (O0 + (O0 + O0)) with O0 by ring.
  rewrite IH. f_equal. unfold total. cbn. ring.
Qed.
Lemma stable_dot_exact A B l k d : yields A (map Ok l) -> yields B (map Ok k) -> zlen l = zlen k -> l <> [] ->
  stable_dot N c true A B d = Ok (sum (products (nmul N) l k)).
Proof.
  intros HA HB HL HN. destruct l as [|a l]; [contradiction|]. destruct k as [|b k]; [rewrite zlen_cons, zlen_nil in HL; pose proof (zlen_nonneg l); lia|].
  rewrite !zlen_cons in HL. rewrite (stable_dot_loop N c A B a b l k d HA HB) by lia. rewrite two_prods_exact, fold_dot_exact. unfold fin. cbn [fst snd]. f_equal. unfold total. cbn. ring.
Qed.
Lemma stable_dot_prod_exact A B l k d : yields A (map Ok l) -> yields B (map Ok k) -> zlen l = zlen k -> l <> [] ->
  stable_dot_prod N c A B d = Ok (sum (products (nmul N) l k)).
Proof.
  intros HA HB HL HN. unfold stable_dot_prod. pose proof HA as (E1 & _). pose proof HB as (E2 & _). rewrite zlen_map in E1, E2.
  rewrite E1, E2, HL, Z.eqb_refl. now apply stable_dot_exact.
Qed.

Lemma prod_res_exact x l : prod_res N x l = repeat O0 (length l).
Proof. revert x. induction l as [|y l IH]; intros x; [reflexivity|]. cbn [prod_res length repeat]. rewrite two_prods_exact. cbn [snd]. now rewrite IH. Qed.
Lemma fold_off_exact (k : list (V * V)) t : Forall (fun ra => fst ra = O0) k -> fst (fold_left (off_step N) k ((O0, O0), t)) = (O0, O0).
Proof.
  revert t. induction k as [|[r a] k IH]; intros t HF; [reflexivity|]. cbn [fold_left]. unfold off_step at 2. cbn [fst snd].
  inversion HF as [|? ? H1 H2]; subst. cbn [fst] in H1. subst r. rewrite sum_step_exact. replace (O0 + t * O0) with O0 by ring. now apply IH.
Qed.
Lemma prod_offset_exact x l : prod_offset N x l = O0.
Proof.
  unfold prod_offset. destruct l as [|y l']; [reflexivity|]. set (l := y :: l'). rewrite fold_off_exact; [unfold fin; cbn [fst snd]; ring|].
  apply Forall_forall. intros [r a] H. apply in_rev in H. apply in_combine_l in H. rewrite prod_res_exact in H. now apply repeat_spec in H.
Qed.
Lemma stable_prod_exact A l d : (zlen l <= amax c + 1)%Z -> yields A (map Ok l) -> l <> [] -> stable_prod N c A d = Ok (prod l).
Proof.
  intros HM HA HN. destruct l as [|x l]; [contradiction|]. rewrite zlen_cons in HM. rewrite (stable_prod_loop N c A x l d) by (assumption || lia).
  rewrite prod_offset_exact, fold_mul. f_equal. unfold total. cbn. ring.
Qed.

Lemma bsums l n : 0 <= n -> (64 * n <= zlen l)%Z -> sum (map (bsum N l) (zseq 0 (Z.to_nat n))) = sum (firstn (Z.to_nat (64 * n)%Z) l).
Proof.
  intros Hn. pattern n. apply natlike_ind; [reflexivity| |exact Hn]. clear n Hn. intros n Hn IH HL.
  replace (Z.to_nat (Z.succ n)) with (S (Z.to_nat n)) by lia. rewrite zseq_S, map_app, sum_app, IH by lia. rewrite Z2Nat.id by lia. cbn [map].
  replace (Z.to_nat (64 * Z.succ n)%Z) with (Z.to_nat (64 * n)%Z + 64)%nat by lia.
  assert (E : firstn (Z.to_nat (64 * n)%Z + 64) l = firstn (Z.to_nat (64 * n)%Z) l ++ block l n).
  { unfold block. rewrite <- (firstn_skipn (Z.to_nat (64 * n)%Z) l) at 1. rewrite firstn_app, firstn_firstn. replace (Nat.min _ _) with (Z.to_nat (64 * n)%Z) by lia. f_equal.
    rewrite firstn_length. f_equal. unfold zlen in HL. lia. }
  rewrite E, sum_app. f_equal. unfold total. cbn [fold_right]. rewrite Z.add_0_l. unfold bsum. rewrite fold_add. unfold total. ring.
Qed.
Lemma firstn_rev_skip l n : (n <= length l)%nat -> firstn n (rev l) = rev (skipn (length l - n) l).
Proof.
  intros H. rewrite <- (firstn_skipn (length l - n) l) at 1. rewrite rev_app_distr. rewrite firstn_app. rewrite rev_length, skipn_length.
  replace (length l - (length l - n))%nat with n by lia. replace (n - n)%nat with O by lia. cbn [firstn]. rewrite app_nil_r, firstn_all2; [reflexivity|]. rewrite rev_length, skipn_length. lia.
Qed.
Lemma semi_value_exact l : semi_value N l = sum l.
Proof.
  unfold semi_value. pose proof (zlen_nonneg l) as HP. set (nb := zlen l / 64). set (rm := zlen l mod 64).
  assert (D : zlen l = (64 * nb + rm)%Z /\ 0 <= rm < 64) by (subst nb rm; lia). clearbody nb rm. destruct D as [D1 D2].
  assert (ER : fold_left (nadd N) (firstn (Z.to_nat rm) (rev l)) O0 = sum (skipn (Z.to_nat (64 * nb)%Z) l)).
  { rewrite fold_add, firstn_rev_skip by (unfold zlen in *; lia). rewrite sum_rev. replace (length l - Z.to_nat rm)%nat with (Z.to_nat (64 * nb)%Z) by (unfold zlen in *; lia). ring. }
  rewrite ER. destruct (Z.eqb_spec nb 0) as [->|E].
  - reflexivity.
  - rewrite fold_sum_step. unfold fin. cbn [fst snd]. rewrite fold_add, bsums by lia. rewrite <- (firstn_skipn (Z.to_nat (64 * nb)%Z) l) at 3. rewrite sum_app. ring.
Qed.
Lemma semi_stable_exact A l d : yields A (map Ok l) -> l <> [] -> zlen l / 64 <= amax c -> semi_stable_sum N c A d = Ok (sum l).
Proof. intros HA HN HM. rewrite (semi_stable_loop N c A l d HA HN HM). now rewrite semi_value_exact. Qed.
End EXACT.
