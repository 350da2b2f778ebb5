(** What timers measure. *)
From Coq Require Import ZArith Reals List.
From Flocq Require Import Core.
From Verif Require Import Model.Timer.
Import ListNotations.
(** The nearest double, ties to even. *)
Definition nearest (x : R) : R := round radix2 (FLT_exp (-1074) 53) ZnearestE x.
(** The number of times a program reads the clock: all actions but copies. *)
Fixpoint reads (p : list act) : nat := match p with [] => 0 | Copy _ :: p => reads p | _ :: p => S (reads p) end.
(** A difference of clock readings that fits 64 bits. *)
Definition fits64 (d : Z) : Prop := (- 2 ^ 63 <= d < 2 ^ 63)%Z.
(** The number of timers a program creates; they are numbered from 0. *)
Fixpoint timers (p : list act) : nat := match p with [] => 0 | Make :: p | Copy _ :: p => S (timers p) | _ :: p => timers p end.
(** Every timer named in the program exists by then; n exist at the beginning. *)
Fixpoint names (n : nat) (p : list act) : Prop :=
  match p with
  | [] => True
  | Make :: p => names (S n) p
  | Copy k :: p => k < n /\ names (S n) p
  | Restart k :: p | Wall k :: p => k < n /\ names n p
  end.
