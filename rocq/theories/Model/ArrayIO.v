(** array_IO.hpp: reading arrays from streams and printing them.
    A stream being read element by element is represented by what [while(is >> x)] gets from it: the values extracted before
    the first failing extraction, and is.eof() at that moment.  The second part of the file computes both from the
    characters, for integer types. *)
From Coq Require Import Ascii.
From Verif Require Import Base.Outcome Base.ZList Model.IntModel Model.Index Model.Array1D Model.Array2D.

Section Read.
Context {V : Type} (zero : V).

(** array_IO.hpp 113-118: the loop of the one-dimensional istream_base_read; tmp and count at the end. *)
Fixpoint read_loop (c : cfg) (toks : list V) (tmp : arr V) (count : Z) : outcome (arr V * Z) :=
  match toks with
  | [] => Ok (tmp, count)
  | x :: r =>
    b <- oset (buf tmp) count x ;; k <- ladd count 1 ;;
    tmp' <- (if an tmp =? k then n <- lmul 2 k ;; arr_resize zero c n true (mkarr b (an tmp)) else Ok (mkarr b (an tmp))) ;;
    read_loop c r tmp' k
  end.
(** array_IO.hpp 107-126: istream_base_read(is, Array1D). *)
Definition read1 (c : cfg) (toks : list V) (ateof : bool) (A : arr V) : mut (arr V) :=
  commit A (tmp <- arr_new zero c 8 ;; ' s <- read_loop c toks tmp 0 ;;
            check_always c ateof ;;; r <- arr_resize zero c (snd s) true (fst s) ;; Ok (fst (arr_swap A r))).

(** array_IO.hpp 136-141: the loop of get_first_row. *)
Fixpoint first_loop (c : cfg) (toks : list V) (A : arr2 V) (ncols : Z) : outcome (arr2 V * Z) :=
  match toks with
  | [] => Ok (A, ncols)
  | x :: r =>
    A' <- arr2_write c (Plain 0) (Plain ncols) x A ;; k <- ladd ncols 1 ;;
    A'' <- (if dcols A' =? k then n <- lmul 2 k ;; arr2_resize zero c 1 n true A' else Ok A') ;;
    first_loop c r A'' k
  end.
(** array_IO.hpp 129-150: get_first_row. *)
Definition get_first_row (c : cfg) (toks : list V) (ateof : bool) (A : arr2 V) : outcome (arr2 V) :=
  A1 <- arr2_resize zero c 1 4 true A ;; ' s <- first_loop c toks A1 0 ;;
  A2 <- (if negb (snd s =? 0) then arr2_resize zero c 1 (snd s) true (fst s) else arr2_resize zero c 0 0 true (fst s)) ;;
  check_always c ateof ;;; Ok A2.
(** array_IO.hpp 158-160: the loop of get_row. *)
Fixpoint row_loop (c : cfg) (row : Z) (toks : list V) (A : arr2 V) (ncols : Z) : outcome (arr2 V * Z) :=
  match toks with
  | [] => Ok (A, ncols)
  | x :: r => A' <- arr2_write c (Plain row) (Plain ncols) x A ;; k <- ladd ncols 1 ;; row_loop c row r A' k
  end.
(** array_IO.hpp 153-165: get_row. *)
Definition get_row (c : cfg) (toks : list V) (ateof : bool) (row : Z) (A : arr2 V) : outcome (arr2 V) :=
  ' s <- row_loop c row toks A 0 ;; check_always c (snd s =? dcols (fst s)) ;;; check_always c ateof ;;; Ok (fst s).

(** A line delivered by std::getline: whether it is the empty string, and what [while(iss >> x)] gets from it. *)
Record line := mkline { lempty : bool; ltoks : list V; leof : bool }.

(** array_IO.hpp 173-175: the loop for the first row; tmp and the lines not yet read.  derived2D.hpp 125 empty(). *)
Fixpoint first_rows (c : cfg) (L : list line) (tmp : arr2 V) : outcome (arr2 V * list line) :=
  if an (dat tmp) =? 0 then
    match L with
    | [] => Ok (tmp, [])
    | l :: L' => tmp' <- get_first_row c (ltoks l) (leof l) tmp ;; first_rows c L' tmp'
    end
  else Ok (tmp, L).
(** array_IO.hpp 182-191: the loop for the other rows; tmp and row_count at the end. *)
Fixpoint next_rows (c : cfg) (ncols : Z) (L : list line) (tmp : arr2 V) (row_count : Z) : outcome (arr2 V * Z) :=
  match L with
  | [] => Ok (tmp, row_count)
  | l :: L' =>
    if lempty l then next_rows c ncols L' tmp row_count
    else tmp' <- get_row c (ltoks l) (leof l) row_count tmp ;; k <- ladd row_count 1 ;;
         tmp'' <- (if drows tmp' =? k then m <- lmul 2 k ;; arr2_resize zero c m ncols true tmp' else Ok tmp') ;;
         next_rows c ncols L' tmp'' k
  end.
(** array_IO.hpp 168-197: istream_base_read(is, Array2D). *)
Definition read2 (c : cfg) (L : list line) (A : arr2 V) : mut (arr2 V) :=
  commit A (' f <- first_rows c L arr2_empty ;;
            r <- (if negb (an (dat (fst f)) =? 0) then
                    tmp <- arr2_resize zero c 2 (dcols (fst f)) true (fst f) ;;
                    ' s <- next_rows c (dcols (fst f)) (snd f) tmp 1 ;;
                    arr2_resize zero c (snd s) (dcols (fst f)) true (fst s)
                  else Ok (fst f)) ;;
            Ok (fst (arr2_swap A r))).
End Read.
Arguments line V : clear implicits.

(** ** Characters *)
Definition text := list ascii.
Definition nl : ascii := "010"%char.
Definition sp : ascii := " "%char.
(** std::isspace in the classic locale: space, \t \n \v \f \r. *)
Definition is_ws (a : ascii) : bool := let n := Z.of_nat (nat_of_ascii a) in (n =? 32) || ((9 <=? n) && (n <=? 13)).
Definition digit_of (a : ascii) : option Z :=
  let n := Z.of_nat (nat_of_ascii a) in if (48 <=? n) && (n <=? 57) then Some (n - 48) else None.
(** Conversion of the digits [n] after an optional minus sign: std::num_get (classic locale, decimal); out of range sets
    failbit.  Unsigned types accept a minus sign and wrap. *)
Definition to_int (t : ity) (neg : bool) (n : Z) : option Z :=
  let z := if neg then - n else n in
  if signed t then if (tmin t <=? z) && (z <=? tmax t) then Some z else None
  else if n <=? tmax t then Some (wrap t z) else None.
(** States of the extraction of one element: skipping white space, after a sign, inside the digits. *)
Inductive scan := Skip | Sign (neg : bool) | Digits (neg : bool) (n : Z).
(** [while(is >> x)] for an integer type of the standard library: the extracted values, and eof() when an extraction fails.
    A token ends at the first character which is not a digit; that character is examined by the next extraction. *)
Fixpoint extract (t : ity) (st : scan) (s : text) : list Z * bool :=
  match s with
  | [] => match st with
          | Skip | Sign _ => ([], true)
          | Digits neg n => match to_int t neg n with Some z => ([z], true) | None => ([], true) end
          end
  | a :: s' =>
    match st, digit_of a with
    | Skip, Some d => extract t (Digits false d) s'
    | Sign neg, Some d => extract t (Digits neg d) s'
    | Digits neg n, Some d => extract t (Digits neg (10 * n + d)) s'
    | Skip, None => if is_ws a then extract t Skip s'
                    else if Ascii.eqb a "-" then extract t (Sign true) s'
                    else if Ascii.eqb a "+" then extract t (Sign false) s' else ([], false)
    | Sign _, None => ([], false)
    | Digits neg n, None =>
      match to_int t neg n with
      | Some z => let r := if is_ws a then extract t Skip s'
                           else if Ascii.eqb a "-" then extract t (Sign true) s'
                           else if Ascii.eqb a "+" then extract t (Sign false) s' else ([], false) in
                  (z :: fst r, snd r)
      | None => ([], false)
      end
    end
  end.
(** std::getline until it fails: the lines without their terminators; a last line without terminator counts if not empty. *)
Fixpoint getlines (cur : text) (s : text) : list text :=
  match s with
  | [] => match cur with [] => [] | _ => [rev cur] end
  | a :: s' => if Ascii.eqb a nl then rev cur :: getlines [] s' else getlines (a :: cur) s'
  end.
Definition line_of (t : ity) (s : text) : line Z :=
  let r := extract t Skip s in mkline (match s with [] => true | _ => false end) (fst r) (snd r).
(** array_IO.hpp 348-357: operator>> on a stream with the characters [s]. *)
Definition read1_text (c : cfg) (t : ity) (s : text) (A : arr Z) : mut (arr Z) :=
  let r := extract t Skip s in read1 0 c (fst r) (snd r) A.
Definition read2_text (c : cfg) (t : ity) (s : text) (A : arr2 Z) : mut (arr2 Z) :=
  read2 0 c (map (line_of t) (getlines [] s)) A.

(** Decimal digits of n, most significant first; [k] bounds their number (log2 n + 1 suffices). *)
Definition digit (d : Z) : ascii := ascii_of_nat (Z.to_nat (48 + d)).
Fixpoint decimal (k : nat) (n : Z) : text :=
  match k with O => [] | S k' => if n <? 10 then [digit n] else decimal k' (n / 10) ++ [digit (n mod 10)] end.
Definition udec (n : Z) : text := decimal (S (Z.to_nat (Z.log2 n))) n.
(** StrictCommon/strict_IO.hpp 198-204: operator<<(Strict<integer>), with std::showpos (no effect on unsigned types). *)
Definition show (t : ity) (x : Z) : text :=
  if signed t then (if x <? 0 then "-"%char else "+"%char) :: udec (Z.abs x) else udec x.
(** std::setw(w): padding on the left up to w characters. *)
Definition pad (w : nat) (s : text) : text := repeat sp (w - length s) ++ s.

(** array_IO.hpp 228-264: ostream_base_print of a one-dimensional object with elements [l], no name, not detailed; column and
    row style (smart_spaces 221-225 is only used by the detailed style). *)
Definition print1_col (t : ity) (l : list Z) : text := concat (map (fun x => show t x ++ [nl]) l).
Fixpoint join (t : ity) (w : nat) (l : list Z) : text :=
  match l with [] => [] | [x] => pad w (show t x) | x :: l' => pad w (show t x) ++ [sp; sp] ++ join t w l' end.
Definition print1_row (t : ity) (l : list Z) : text := join t 0 l ++ [nl].
(** array_IO.hpp 301-325: ostream_base_print of a two-dimensional object with rows [M], no name, not detailed.  Computing
    the width takes absolute values (267-280), which overflow on the smallest value of a signed type; [w] is the width
    given by integer_spacing (200-210), left arbitrary: the logarithm is not modelled. *)
Definition print2 (t : ity) (w : nat) (M : list (list Z)) : outcome text :=
  if signed t && existsb (fun x => x =? tmin t) (concat M) then UB
  else Ok (concat (map (fun r => join t w r ++ [nl]) M)).
