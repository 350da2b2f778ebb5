(** Input of the reading functions, and the notions used to state what they return. *)
From Verif Require Import Base.Outcome Base.ZList Model.ArrayIO.

(** A failed check that is never compiled out is visible: exceptions are on or assert is active. *)
Definition loud (c : cfg) : bool := exc c || negb (ndbg c).
Definition two62 : Z := 4611686018427387904.

Section L.
Context {V : Type}.
Implicit Types (l : line V) (L : list (line V)).
(** A line without values: empty, or white space only. *)
Definition blank l : Prop := ltoks l = [] /\ leof l = true.
(** A line with exactly n well-formed values. *)
Definition row_of (n : Z) l : Prop := lempty l = false /\ zlen (ltoks l) = n /\ leof l = true.
(** Empty lines between rows are skipped. *)
Definition skipped l : Prop := lempty l = true.
Definition rows_or_empty (n : Z) L : Prop := Forall (fun l => skipped l \/ row_of n l) L.
(** The values of the lines that are not skipped. *)
Definition rows L : list (list V) := map ltoks (filter (fun l => negb (lempty l)) L).
End L.
(** The rows of storage the reader has when k >= 1 rows are complete: the least power of two above k. *)
Definition capacity (k : Z) : Z := 2 * 2 ^ Z.log2 k.

(** ** Text *)
From Coq Require Import Ascii.
From Verif Require Import Model.IntModel.
(** The characters 0 .. 9, white space, signs. *)
Definition numerals : list ascii := ["0"; "1"; "2"; "3"; "4"; "5"; "6"; "7"; "8"; "9"]%char.
Definition numeral (d : Z) : ascii := nth (Z.to_nat d) numerals "0"%char.
Definition spaces : list ascii := [" "; "009"; "010"; "011"; "012"; "013"]%char.
Definition signs : list ascii := ["+"; "-"]%char.
(** Characters that cannot occur in the text of integers. *)
Definition foreign (a : ascii) : Prop := ~ In a numerals /\ ~ In a spaces /\ ~ In a signs.
Definition gap (s : text) : Prop := Forall (fun a => In a spaces) s.
(** Number with these digits, most significant first. *)
Definition number (ds : list Z) : Z := fold_left (fun v d => 10 * v + d) ds 0.
(** Text of digits with value n. *)
Definition digits (s : text) (n : Z) : Prop := exists ds, ds <> [] /\ Forall (fun d => 0 <= d < 10) ds /\ s = map numeral ds /\ n = number ds.
(** Text of an integer, any size. *)
Definition integer (s : text) (z : Z) : Prop :=
  digits s z \/ (exists u, s = "+"%char :: u /\ digits u z) \/ (exists u, s = "-"%char :: u /\ digits u (- z)).
Definition in_type (t : ity) (z : Z) : Prop := tmin t <= z <= tmax t.
(** Integers of the type separated by white space, with optional white space at both ends. *)
Inductive words (t : ity) : text -> list Z -> Prop :=
| words_nil g : gap g -> words t g []
| words_cons g s z r zs : gap g -> integer s z -> in_type t z -> words t r zs ->
    (match r with [] => True | a :: _ => In a spaces end) -> words t (g ++ s ++ r) (z :: zs).
(** The text ends in white space, or is empty. *)
Definition detached (s : text) : Prop := s = [] \/ exists u a, s = u ++ [a] /\ In a spaces.
(** Lines put together, each terminated. *)
Definition unlines (Ls : list text) : text := concat (map (fun s => s ++ ["010"%char]) Ls).
Definition one_line (s : text) : Prop := ~ In "010"%char s.
