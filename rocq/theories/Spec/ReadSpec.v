(** What [while(is >> x)] reads from an arbitrary text. *)
From Coq Require Import Ascii Reals.
From Flocq Require Import Core BinarySingleNaN.
From Verif Require Import Base.Outcome Base.ZList Model.IntModel Model.ArrayIO Spec.IOSpec Spec.FloatSpec Spec.FloatIOSpec.

Section T.
Context {V : Type} (number_text : text -> Prop) (value : text -> V -> Prop).
(** The text can be continued to a number. *)
Definition viable (t : text) : Prop := exists w, number_text (t ++ w).
(** A token [t] is as long as possible: with the next character it is not the beginning of a number any more. *)
Definition longest (t u : text) : Prop := viable t /\ match u with [] => True | a :: _ => ~ viable (t ++ [a]) end.
(** The values of the tokens up to the first one without a value, and whether the end of the text was reached by then. *)
Inductive reads : text -> list V -> bool -> Prop :=
| reads_end g : gap g -> reads g [] true
| reads_value g t u v vs e : gap g -> longest t u -> value t v -> reads u vs e -> reads (g ++ t ++ u) (v :: vs) e
| reads_stop g t u : gap g -> longest t u -> (forall v, ~ value t v) -> (match t ++ u with [] => False | a :: _ => ~ In a spaces end) ->
    reads (g ++ t ++ u) [] (match u with [] => true | _ => false end).
End T.

(** Integers: a value of the type; for unsigned types a minus sign is accepted and the number is taken modulo 2^bits. *)
Definition integer_text (s : text) : Prop := exists z, integer s z.
Definition integer_value (t : ity) (s : text) (v : Z) : Prop :=
  exists z, integer s z /\ (if signed t then in_type t z /\ v = z else Z.abs z <= tmax t /\ v = z mod 2 ^ bits t).
(** Booleans: the integers 0 and 1. *)
Definition bool_value (s : text) (v : bool) : Prop := integer s (if v then 1 else 0).
(** Floating-point numbers: the nearest number; none if that is too large. *)
Definition real_text (s : text) : Prop := exists neg D E, decimal_text s neg D E.
Definition real_value (prec emax : Z) (s : text) (x : binary_float prec emax) : Prop :=
  exists neg D E, decimal_text s neg D E /\ nearest_to prec emax x neg (IZR D * ten_to E).

(** The lines of a text: each ends with a newline, except perhaps the last. *)
Definition lines_of (s : text) (Ls : list text) : Prop :=
  Forall one_line Ls /\ (s = unlines Ls \/ exists Ls0 l, Ls = Ls0 ++ [l] /\ l <> [] /\ s = unlines Ls0 ++ l).
(** What a line gives. *)
Definition line_reads {V} (number_text : text -> Prop) (value : text -> V -> Prop) (s : text) (l : line V) : Prop :=
  reads number_text value s (ltoks l) (leof l) /\ (lempty l = true <-> s = []).
