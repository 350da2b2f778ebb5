(** What assignments through views do to the storage. *)
From Verif Require Import Base.Outcome Base.ZList Model.View2D Spec.ExprSpec Spec.ReduceSpec.

(** The elements of o, in linear order, are at these places of a storage of N elements. *)
Definition at_places (c : cfg) (N : Z) (o : obj) (ps : list Z) : Prop :=
  o_size o = Ok (zlen ps) /\ zlen ps <= LONG_MAX /\ Forall (fun p => 0 <= p < N) ps /\ forall i p, znth ps i = Some p -> o_lin c o i = Ok p.
(** The operands that reach place q, in order. *)
Definition hits {X} (q : Z) (l : list (Z * X)) : list X := map snd (filter (fun e => fst e =? q) l).
(** Storage b' is b after each operand of the list was applied to its place: f is applied once per operand. *)
Definition after {V X} (f : V -> X -> outcome V) (b : list V) (l : list (Z * outcome X)) (b' : list V) : Prop :=
  zlen b' = zlen b /\ forall q v, znth b q = Some v -> exists w, foldo f v (hits q l) = Ok w /\ znth b' q = Some w.
(** Applying all the operands in order: either all succeed, or the first failing one (number k) decides the outcome, the
    operands before it have taken effect and nothing else has changed. *)
Definition runs {V X} (f : V -> X -> outcome V) (b : list V) (l : list (Z * outcome X)) (r : mut (list V)) : Prop :=
  (exists b', r = MOk b' /\ after f b l b') \/
  (exists k p ox v b', znth l k = Some (p, ox) /\ after f b (firstn (Z.to_nat k) l) b' /\ znth b' p = Some v /\
     ((exists e, (x <- ox ;; f v x) = Fail e /\ r = MFail e b') \/ ((x <- ox ;; f v x) = UB /\ r = MUB))).
(** Plain assignment: the operand replaces the element. *)
Definition replace {V} : V -> V -> outcome V := fun _ x => Ok x.
(** No element of the source is read after its place was written. *)
Definition reads_ahead (ps qs : list Z) : Prop :=
  forall i j p q, j < i -> znth ps j = Some p -> znth qs i = Some q -> p <> q.
(** The values at the places qs. *)
Definition values_at {V} (b : list V) (qs : list Z) (vs : list V) : Prop :=
  zlen vs = zlen qs /\ forall i q, znth qs i = Some q -> znth vs i = znth b q.
(** The element at place p satisfies the condition. *)
Definition holds_at {V} (f : V -> bool) (b : list V) (p : Z) : bool := match znth b p with Some x => f x | None => false end.
