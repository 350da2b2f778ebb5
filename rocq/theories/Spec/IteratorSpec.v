(** What iterators are supposed to be: positions in a sequence. *)
From Verif Require Import Base.Outcome Base.ZList Model.Index Model.View2D Model.Iterator.
From Verif Require Import Spec.ArraySpec.

(** The object shows the sequence l to its iterators. *)
Definition shows {R} (F : flag R) (l : list R) : Prop :=
  zlen l <= LONG_MAX /\ f_size F = Ok (zlen l) /\ forall i, 0 <= i < zlen l -> f_at F i = oget l i.

(** The position an iterator program reaches in a sequence of n elements. *)
Fixpoint ipos (n : Z) (e : iexp) : Z :=
  match e with
  | IBegin => 0
  | IEnd => n
  | IInc e | IPostInc e => ipos n e + 1
  | IDec e | IPostDec e => ipos n e - 1
  | IPlus e k | IPlusL k e | IAddEq e k => ipos n e + k
  | IMinus e k | ISubEq e k => ipos n e - k
  end.
(** No position on the way overflows. *)
Fixpoint ifits (n : Z) (e : iexp) : Prop :=
  is_long (ipos n e) /\
  match e with
  | IBegin | IEnd => True
  | IInc e | IPostInc e | IDec e | IPostDec e => ifits n e
  | IPlus e _ | IPlusL _ e | IAddEq e _ | IMinus e _ | ISubEq e _ => ifits n e
  end.

(** The order of positions. *)
Definition icmp_holds (k : icmp) (x y : Z) : Prop :=
  match k with IEq => x = y | INe => x <> y | ILt => x < y | ILe => x <= y | IGt => x > y | IGe => x >= y end.

(** Every cell of the plane, row by row. *)
Definition plane (m n : Z) : list (Z * Z) := list_prod (zseq 0 (Z.to_nat m)) (zseq 0 (Z.to_nat n)).
(** The shapes a range may have. *)
Definition shape_ok (m n : Z) : Prop := 0 <= m /\ 0 <= n /\ (m = 0 <-> n = 0).
