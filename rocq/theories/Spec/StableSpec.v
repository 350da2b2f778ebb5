(** Exact arithmetic: a commutative ring, with arbitrary comparisons. *)
From Coq Require Import Ring_theory ZArithRing.
From Verif Require Import Base.Outcome Model.StableOps.

Record exact_num {V} (N : num V) : Prop := {
  ex_ring : ring_theory (nzero N) (none_ N) (nadd N) (nmul N) (nsub N) (nneg N) eq;
  ex_fma : forall a b c, nfma N a b c = nadd N (nmul N a b) c;
  ex_of0 : nofZ N 0 = nzero N;
  ex_ofS : forall z, 0 <= z -> nofZ N (z + 1) = nadd N (nofZ N z) (none_ N) }.

(** The integers, with a comparison of our choice (the theorems do not depend on it). *)
Definition znum (lt le : Z -> Z -> bool) : num Z :=
  mknum Z.add Z.sub Z.mul Z.quot (fun a b c => a * b + c) Z.opp lt le Z.eqb 0 1 (fun z => z).
Lemma znum_exact lt le : exact_num (znum lt le).
Proof. constructor; intros; cbn; try reflexivity. constructor; intros; cbn [znum nzero none_ nadd nmul nsub nneg]; ring. Qed.

(** A set closed under addition and under multiplication by anything. *)
Definition ideal {V} (N : num V) (J : V -> Prop) : Prop :=
  J (nzero N) /\ (forall a b, J a -> J b -> J (nadd N a b)) /\ (forall a b, J a -> J (nmul N a b)).
