(** Dual numbers a + b e with e * e = 0 over the integers: exact arithmetic in which products of two residues vanish.
    Used for examples only. *)
From Coq Require Import Ring_theory ZArithRing.
From Verif Require Import Base.Outcome Model.StableOps Spec.StableSpec.

Definition dual : num (Z * Z) :=
  mknum (fun x y => (fst x + fst y, snd x + snd y)) (fun x y => (fst x - fst y, snd x - snd y))
        (fun x y => (fst x * fst y, fst x * snd y + snd x * fst y)) (fun x y => x)
        (fun x y z => (fst x * fst y + fst z, fst x * snd y + snd x * fst y + snd z)) (fun x => (- fst x, - snd x))
        (fun x y => fst x <? fst y) (fun x y => fst x <=? fst y) (fun x y => (fst x =? fst y) && (snd x =? snd y))
        (0, 0) (1, 0) (fun z => (z, 0)).
Lemma dual_exact : exact_num dual.
Proof.
  constructor; cbn [dual nzero none_ nadd nmul nsub nneg nofZ nfma fst snd]; intros.
  - constructor; intros; repeat match goal with x : (Z * Z)%type |- _ => destruct x end; cbn [fst snd]; f_equal; ring.
  - reflexivity.
  - reflexivity.
  - f_equal.
Qed.
(** Every product loses e. *)
Definition dual_tp (x y : Z * Z) : (Z * Z) * (Z * Z) := (nsub dual (nmul dual x y) (0, 1), (0, 1)).
