(** The contract of std::log10, and what it means that printed numbers are in columns. *)
From Coq Require Import Ascii Reals.
From Flocq Require Import Core BinarySingleNaN.
From Verif Require Import Base.Outcome Base.ZList Model.ArrayIO Spec.IOSpec Spec.FloatSpec Spec.FloatIOSpec.

(** std::log10 of the C library: monotone, exact where the argument is a power of ten, otherwise within two units in the last
    place of the logarithm (stated as a relative error); not finite for an infinity and NaN. *)
Record log10_contract (prec emax : Z) (lg : binary_float prec emax -> binary_float prec emax) : Prop := {
  log10_finite : forall x, is_finite x = true -> (0 < B2R x)%R -> is_finite (lg x) = true;
  log10_exact : forall x k, 0 <= k -> is_finite x = true -> B2R x = ten_to k -> B2R (lg x) = IZR k;
  log10_monotone : forall x y, is_finite x = true -> is_finite y = true -> (0 < B2R x <= B2R y)%R -> (B2R (lg x) <= B2R (lg y))%R;
  log10_accurate : forall x, is_finite x = true -> (0 < B2R x)%R ->
    (Rabs (B2R (lg x) - ln (B2R x) / ln 10) <= bpow radix2 (2 - prec) * Rabs (ln (B2R x) / ln 10))%R;
  log10_special : forall x, is_finite x = false -> is_finite (lg x) = false }.

(** More than the contract: a logarithm that is at least j for every number from 10^j on, as the correctly rounded one. *)
Definition respects_tens (prec emax : Z) (lg : binary_float prec emax -> binary_float prec emax) : Prop :=
  forall y j, is_finite y = true -> (ten_to j <= B2R y)%R -> (IZR j <= B2R (lg y))%R.

(** n has d decimal digits. *)
Definition has_digits (n d : Z) : Prop := 1 <= d /\ (if n =? 0 then d = 1 else 10 ^ (d - 1) <= n < 10 ^ d).
(** Decimal text without leading zeros. *)
Definition plain (s : text) (n : Z) : Prop := digits s n /\ (s = ["0"%char] \/ match s with [] => False | a :: _ => a <> "0"%char end).

(** Text in a field: blanks, then the text. *)
Definition field (W : Z) (t s : text) : Prop := exists k, s = repeat " "%char k ++ t /\ zlen s = W.
(** Fields of given widths, two blanks between them.  [cell j t s]: s is what is written for column j with text t. *)
Inductive fields (cell : Z -> text -> text -> Prop) : Z -> list text -> text -> Prop :=
| fields_one j t s : cell j t s -> fields cell j [t] s
| fields_more j t s t' ts r : cell j t s -> fields cell (j + 1) (t' :: ts) r -> fields cell j (t :: t' :: ts) (s ++ [" "; " "]%char ++ r).
(** A table: a line for each row, all fields of width W. *)
Definition table (W : Z) (M : list (list text)) (s : text) : Prop :=
  exists Ls, s = unlines Ls /\ Forall2 (fields (fun _ => field W) 0) M Ls.
(** A table with labels [i, j]: in column j all fields, including the label, are C j wide, and the text ends there. *)
Definition labelled (i j : Z) (W C : Z) (t s : text) : Prop := exists u v k b,
  s = "["%char :: u ++ [","; " "]%char ++ v ++ ["]"; " "; "="]%char ++ repeat " "%char k ++ b /\
  plain u i /\ plain v j /\ (1 <= k)%nat /\ field W t b /\ zlen s = C.
Definition labelled_table (W : Z) (C : Z -> Z) (M : list (list text)) (s : text) : Prop :=
  exists Ls, s = unlines Ls /\ zlen Ls = zlen M /\
    forall i r l, znth M i = Some r -> znth Ls i = Some l -> fields (fun j => labelled i j W (C j)) 0 r l.
(** A column with labels [i], all texts beginning P characters after the beginning of the line. *)
Definition labelled_column (P : Z) (ts : list text) (s : text) : Prop :=
  exists Ls, s = unlines Ls /\ zlen Ls = zlen ts /\
    forall i t l, znth ts i = Some t -> znth Ls i = Some l -> exists u k,
      l = ("["%char :: u ++ ["]"; " "; "="]%char ++ repeat " "%char k) ++ t /\ plain u i /\ (1 <= k)%nat /\ zlen l = P + zlen t.
(** The name on a line of its own, if there is one. *)
Definition titled (name s s' : text) : Prop := s' = match name with [] => s | _ => unlines [name ++ [":"%char]] ++ s end.

Section F.
Context (prec emax : Z).
Notation flt := (binary_float prec emax).
(** With p digits after the point, |x| is not rounded up to a power of ten, from 10 on. *)
Definition no_carry (p : nat) (x : flt) : Prop :=
  forall k, 1 <= k -> (Rabs (B2R x) < ten_to k)%R -> (Rabs (B2R x) + / 2 * ten_to (- Z.of_nat p) < ten_to k)%R.
(** Numbers with a decimal exponent of at most two digits. *)
Definition two_digit_exponent (x : flt) : Prop := B2R x = 0%R \/ (ten_to (-99) <= Rabs (B2R x) < ten_to 99)%R.
End F.
