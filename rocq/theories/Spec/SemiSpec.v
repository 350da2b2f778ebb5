(** The sequence of raw draws of the semi-random generator, as a recurrence over the integers. *)
From Verif Require Import Base.Outcome Base.ZList Model.IntModel.

Definition two32 : Z := 4294967296.
(** The value the generator starts from: the time character and the seed. *)
Definition start (tm seed : Z) : Z := (100000 * (tm + seed)) mod two32.
(** Draw number k, from 0. *)
Fixpoint draw (tm seed : Z) (k : nat) : Z :=
  match k with
  | O => ((8 * start tm seed + 13) mod two32) mod 10000000
  | S k' => (8 * draw tm seed k' + 13) mod 10000000
  end.
(** Arguments of the C++ functions: values of the element type, seed and time character. *)
Definition args_ok (t : ity) (tm seed low high : Z) : Prop :=
  0 <= tm < 256 /\ 0 <= seed < two32 /\ tmin t <= low /\ low <= high /\ high <= tmax t.
(** The number of values of the range is a value of the element type. *)
Definition width_ok (t : ity) (low high : Z) : Prop := high - low + 1 <= tmax t.
(** The pair of bounds that is treated differently. *)
Definition unit_range (low high : Z) : Prop := low = 0 /\ high = 1.
(** Seed used for an object with n elements. *)
Definition seed_of (seed n : Z) : Z := (seed + n) mod two32.
(** Powers of two up to 8, and up to 128. *)
Definition pow2_8 (w : Z) : Prop := w = 2 \/ w = 4 \/ w = 8.
Definition pow2_128 (w : Z) : Prop := w = 2 \/ w = 4 \/ w = 8 \/ w = 16 \/ w = 32 \/ w = 64 \/ w = 128.
