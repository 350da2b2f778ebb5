(** Random numbers: what is assumed of the distributions, and sequences of draws. *)
From Verif Require Import Base.Outcome Base.ZList.

Section S.
Context {V St : Type}.
(** With admissible bounds the values lie between them. *)
Definition in_bounds (leb pre : V -> V -> bool) (draw : V -> V -> St -> V * St) : Prop :=
  forall low high s, pre low high = true -> leb low (fst (draw low high s)) = true /\ leb (fst (draw low high s)) high = true.
Definition between (leb : V -> V -> bool) (low high v : V) : Prop := leb low v = true /\ leb v high = true.
(** State and value of the k-th draw, k = 0, 1, ... *)
Fixpoint state_after (draw : V -> V -> St -> V * St) (low high : V) (k : nat) (s : St) : St :=
  match k with O => s | S k' => state_after draw low high k' (snd (draw low high s)) end.
Definition nth_draw (draw : V -> V -> St -> V * St) (low high : V) (k : nat) (s : St) : V := fst (draw low high (state_after draw low high k s)).
(** The first n draws. *)
Definition first_draws (draw : V -> V -> St -> V * St) (low high : V) (n : nat) (s : St) : list V := map (fun k => nth_draw draw low high k s) (seq 0 n).
End S.
