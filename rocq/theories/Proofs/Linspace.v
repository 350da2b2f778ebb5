(** linspace over any field (exact arithmetic). *)
From Coq Require Import Field_theory Field QArith Qcanon ZArith Lia.
From Verif Require Import Base.Outcome Base.ZList Model.Index Model.Array1D Model.Array2D Model.View2D Model.Expr.
From Verif Require Import Spec.ArraySpec Spec.ExprSpec.

Local Open Scope Z_scope.
Section F.
Context (F : Type) (z o : F) (fadd fmul fsub : F -> F -> F) (fopp : F -> F) (fdiv : F -> F -> F) (finv : F -> F).
Context (FT : field_theory z o fadd fmul fsub fopp fdiv finv (@eq F)).
Add Field FF : FT.
Context (cast : Z -> F).
Definition f_lin (c : cfg) n a b := x_linspace c (fun x y => Ok (fadd x y)) (fun x y => Ok (fsub x y)) (fun x y => Ok (fmul x y)) (fun x y => Ok (fdiv x y)) (fun i => Ok (cast i)) n a b.
Lemma linspace_ok c n a b : 2 <= n <= LONG_MAX -> cast 0 = z -> (forall i, 0 <= i -> cast (i + 1) = fadd (cast i) o) -> cast (n - 1) <> z ->
  exists R, f_lin c n a b = Ok R /\ ssize R = n /\ sun R 0 = Ok a /\ sun R (n - 1) = Ok b /\
    exists x : Z -> F, exists h : F, (forall i, 0 <= i < n -> sun R i = Ok (x i)) /\ forall i, 0 <= i -> i + 1 < n -> x (i + 1) = fadd (x i) h.
Proof.
  intros Hn C0 CS CN. unfold f_lin, x_linspace, x_seq. replace (0 <? n) with true by lia. rewrite check_debug_true. cbn [bind]. rewrite lsub_ok by (unfold LONG_MIN; lia). cbn [bind]. replace (-1 <? n) with true by lia. rewrite check_debug_true. cbn [bind].
  eexists. split; [reflexivity|]. cbn [ssize sun bind]. split; [reflexivity|]. split; [|split].
  - f_equal. rewrite C0. field. assumption.
  - f_equal. field. assumption.
  - exists (fun i => fadd a (fmul (fdiv (fsub b a) (cast (n - 1))) (cast i))), (fdiv (fsub b a) (cast (n - 1))). split; [reflexivity|]. intros i Hi Hi2. rewrite CS by lia. field. assumption.
Qed.
Lemma linspace_bad c n a b : n <= 0 -> checked c = true -> f_lin c n a b = Fail (report c).
Proof. intros Hn HC. unfold f_lin, x_linspace. replace (0 <? n) with false by lia. now rewrite check_debug_false. Qed.
(** One point: the spacing is a quotient by zero. *)
Lemma linspace_one c a b : exists R, f_lin c 1 a b = Ok R /\ ssize R = 1 /\ sun R 0 = Ok (fadd a (fmul (fdiv (fsub b a) (cast 0)) (cast 0))).
Proof.
  unfold f_lin, x_linspace, x_seq. replace (0 <? 1) with true by reflexivity. rewrite check_debug_true. cbn [bind]. rewrite lsub_ok by (unfold LONG_MIN, LONG_MAX; lia). cbn [bind]. replace (-1 <? 1) with true by reflexivity. rewrite check_debug_true. cbn [bind].
  eexists. split; [reflexivity|]. split; reflexivity.
Qed.
End F.
(** The rationals meet the hypotheses. *)
Lemma Qc_cast_0 : Q2Qc (inject_Z 0) = 0%Qc.
Proof. reflexivity. Qed.
Lemma Qc_cast_S i : Q2Qc (inject_Z (i + 1)) = (Q2Qc (inject_Z i) + 1)%Qc.
Proof. apply Qc_is_canon. unfold Qcplus, Q2Qc, this. rewrite !Qred_correct, inject_Z_plus. reflexivity. Qed.
Lemma Qc_cast_nonzero n : n <> 0 -> Q2Qc (inject_Z n) <> 0%Qc.
Proof. intros Hn E. apply Hn. assert (Qeq (inject_Z n) (inject_Z 0)) as G. { rewrite <- (Qred_correct (inject_Z n)). change (Qred (inject_Z n)) with (this (Q2Qc (inject_Z n))). rewrite E. reflexivity. } unfold Qeq, inject_Z in G. cbn in G. lia. Qed.
