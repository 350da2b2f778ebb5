(** Util/timer.hpp: timers on the clock of the system.  The clock is a parameter: clk n is what the n-th call of now() in the
    program returns, in nanoseconds.  Nothing is assumed of it: the member start is a time_point of system_clock (line 46), which may be set.
    Simplification: the resolution of the clock is the nanosecond, as with libstdc++, where high_resolution_clock is system_clock
    (elsewhere line 31 does not compile), so that duration_cast changes nothing.  STRICT_TIME (16-24) is not modelled. *)
From Coq Require Import ZArith List.
From Flocq Require Import Core BinarySingleNaN.
From Verif Require Import Base.Outcome Model.IntModel Model.StableOps Model.FloatModel Model.Scalars.
Import ListNotations.

(** timer.hpp 38-43: static_cast<double>(count) / 1.e9; the difference of two clock readings is one of 64-bit integers. *)
Definition seconds (d : Z) : flt F64 := ndiv (fnum (fprec F64) (femax F64)) (int_to_flt F64 d) (int_to_flt F64 1000000000).
Definition elapsed (now start : Z) : outcome (flt F64) := d <- isub I64 now start ;; Ok (seconds d).

(** Programs with timers: each timer is its start (line 46). *)
Inductive act :=
| Make                 (* timer t;  lines 31-32: reads the clock *)
| Copy (k : nat)       (* timer t = tk;  implicit copy constructor: no clock *)
| Restart (k : nat)    (* tk.restart();  lines 34-36 *)
| Wall (k : nat).      (* tk.wall_time();  lines 38-43 *)
Fixpoint upd (l : list Z) (k : nat) (v : Z) : list Z :=
  match l, k with [], _ => [] | _ :: l, O => v :: l | x :: l, S k => x :: upd l k v end.
Record tstate := mkts { calls : nat; starts : list Z; shown : list (flt F64) }.
Section RUN.
Context (clk : nat -> Z).
(** A timer that does not exist cannot be named: undefined. *)
Definition step (a : act) (s : tstate) : outcome tstate :=
  match a with
  | Make => Ok (mkts (S (calls s)) (starts s ++ [clk (calls s)]) (shown s))
  | Copy k => match nth_error (starts s) k with Some v => Ok (mkts (calls s) (starts s ++ [v]) (shown s)) | None => UB end
  | Restart k => match nth_error (starts s) k with Some _ => Ok (mkts (S (calls s)) (upd (starts s) k (clk (calls s))) (shown s)) | None => UB end
  | Wall k => match nth_error (starts s) k with Some v => x <- elapsed (clk (calls s)) v ;; Ok (mkts (S (calls s)) (starts s) (shown s ++ [x])) | None => UB end
  end.
Fixpoint run (p : list act) (s : tstate) : outcome tstate := match p with [] => Ok s | a :: p => s' <- step a s ;; run p s' end.
End RUN.
