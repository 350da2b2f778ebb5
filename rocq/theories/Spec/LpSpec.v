(** The lp norms of lists of real numbers. *)
From Coq Require Import Reals List.
From Verif Require Import Base.Outcome Base.ZList Model.StableOps Spec.ReduceSpec Spec.StableSpec Spec.NormSpec.
Import ListNotations.
Local Open Scope Z_scope.
(** Real numbers as an arithmetic. *)
Definition Rltb (x y : R) : bool := if Rlt_dec x y then true else false.
Definition Rleb (x y : R) : bool := if Rle_dec x y then true else false.
Definition Reqb (x y : R) : bool := if Req_EM_T x y then true else false.
Definition rnum : num R := mknum Rplus Rminus Rmult Rdiv (fun a b c => a * b + c)%R Ropp Rltb Rleb Reqb 0%R 1%R IZR.
(** powr takes p-th roots of non-negative numbers (std::pow in exact arithmetic). *)
Definition roots (powr : R -> R -> R) (p : Z) : Prop :=
  forall s, (0 <= s)%R -> (0 <= powr s (1 / IZR p))%R /\ ((powr s (1 / IZR p)) ^ Z.to_nat p = s)%R.
(** |x0|^p + |x1|^p + ... *)
Definition lp_sum (p : Z) (l : list R) : R := rsum (map (fun x => Rabs x ^ Z.to_nat p)%R l).
(** r is the lp norm of l. *)
Definition is_lp (p : Z) (l : list R) (r : R) : Prop := (0 <= r)%R /\ (r ^ Z.to_nat p = lp_sum p l)%R.
(** Pairs (r, s) computed for the powers x^p. *)
Definition pow_pairs {V} (N : num V) (c : cfg) (xs : list V) (ps : list Z) (prs : list (V * V)) : Prop :=
  length xs = length ps /\ length prs = length xs /\
  forall i x p, znth xs i = Some x -> znth ps i = Some p -> exists q, znth prs i = Some q /\ pow_prods N c x p = Ok q.
(** c0 (r0 + s0) + c1 (r1 + s1) + ... *)
Fixpoint pair_terms {V} (add mul : V -> V -> V) (cs : list V) (prs : list (V * V)) : list V :=
  match cs, prs with a :: cs', q :: prs' => mul a (add (fst q) (snd q)) :: pair_terms add mul cs' prs' | _, _ => [] end.
(** The allocation of pow_prods succeeds. *)
Definition pow_fits (c : cfg) (p : Z) : Prop := 0 <= p <= LONG_MAX /\ (2 * (p / 2 - 1) <= amax c \/ p < 6).
