(** Reading and printing floating-point numbers: StrictCommon/strict_IO.hpp 76-185, 207-217 and array_IO.hpp for arrays of them.
    Conversions between binary and decimal are taken to be correctly rounded (to nearest, ties to even), as in glibc;
    the characters accepted while reading are those of libstdc++'s num_get.  Quadruple precision: QuadIO.v. *)
From Coq Require Import Ascii.
From Flocq Require Import Core BinarySingleNaN Div.
From Verif Require Import Base.Outcome Base.ZList Model.IntModel Model.Index Model.Array1D Model.Array2D Model.Reduce Model.FloatModel Model.ArrayIO.

(** ** Decimal digits *)
Definition radix10 : radix := Build_radix 10 eq_refl.
(** n / d (positive) rounded to the nearest integer, ties to even. *)
Definition rne (n d : Z) : Z :=
  let q := n / d in let r := n mod d in
  if 2 * r <? d then q else if d <? 2 * r then q + 1 else if Z.even q then q else q + 1.
Definition scale_up (n k : Z) : Z := n * 10 ^ Z.max 0 k.
(** The decimal exponent of n / d: 10^k <= n / d < 10^(k+1). *)
Definition dec_exp (n d : Z) : Z :=
  let k := Zdigits radix10 n - Zdigits radix10 d in
  if scale_up d k <=? scale_up n (- k) then k else k - 1.
(** p + 1 significant digits of n / d, as an integer with p + 1 digits and the exponent of the first digit. *)
Definition sci_digits (p : nat) (n d : Z) : Z * Z :=
  let k := dec_exp n d in
  let q := rne (scale_up n (Z.of_nat p - k)) (scale_up d (k - Z.of_nat p)) in
  if q =? 10 ^ (Z.of_nat p + 1) then (10 ^ Z.of_nat p, k + 1) else (q, k).
(** The last k decimal digits of n, with leading zeros. *)
Fixpoint fixed_digits (k : nat) (n : Z) : text :=
  match k with O => [] | S k' => fixed_digits k' (n / 10) ++ [digit (n mod 10)] end.
(** Exponents have at least two digits. *)
Definition exp_digits (k : Z) : text := if k <? 10 then fixed_digits 2 k else udec k.
Definition sign_char (neg : bool) : ascii := if neg then "-"%char else "+"%char.

Section F.
Context (prec emax : Z) {Hp : Prec_gt_0 prec} {He : Prec_lt_emax prec emax}.
Notation flt := (binary_float prec emax).
Implicit Types (x : flt) (s : text).

(** |x| of a finite nonzero number as a fraction. *)
Definition frac_num (m : positive) (e : Z) : Z := Zpos m * 2 ^ Z.max 0 e.
Definition frac_den (e : Z) : Z := 2 ^ Z.max 0 (- e).
(** std::scientific with precision p: d.ddd, exponent. *)
Definition sci_text (p : nat) (q k : Z) : text :=
  digit (q / 10 ^ Z.of_nat p) :: "."%char :: fixed_digits p (q mod 10 ^ Z.of_nat p) ++ "e"%char :: sign_char (k <? 0) :: exp_digits (Z.abs k).
Definition inf_text : text := ["i"; "n"; "f"]%char.
Definition nan_text : text := ["n"; "a"; "n"]%char.
(** strict_IO.hpp 207-216, scientific branch: showpos, scientific, showpoint, setprecision(p).  The sign bit of a NaN is
    not modelled: '+' is printed. *)
Definition show_sci (p : nat) x : text :=
  match x with
  | B754_zero s => sign_char s :: sci_text p 0 0
  | B754_infinity s => sign_char s :: inf_text
  | B754_nan => sign_char false :: nan_text
  | B754_finite s m e _ => let r := sci_digits p (frac_num m e) (frac_den e) in sign_char s :: sci_text p (fst r) (snd r)
  end.
(** strict_IO.hpp 213-214, fixed branch: p digits after the point. *)
Definition fix_text (p : nat) (q : Z) : text :=
  udec (q / 10 ^ Z.of_nat p) ++ "."%char :: fixed_digits p (q mod 10 ^ Z.of_nat p).
Definition show_fix (p : nat) x : text :=
  match x with
  | B754_zero s => sign_char s :: fix_text p 0
  | B754_infinity s => sign_char s :: inf_text
  | B754_nan => sign_char false :: nan_text
  | B754_finite s m e _ => sign_char s :: fix_text p (rne (scale_up (frac_num m e) (Z.of_nat p)) (frac_den e))
  end.
(** strict_IO.hpp 208-217: operator<<; [sci] is format.is_scientific(). *)
Definition show_float (sci : bool) (p : nat) x : text := if sci then show_sci p x else show_fix p x.

(** ** Reading *)
(** A value of the format; infinities and NaN give None. *)
Definition finite_of (z : SpecFloat.spec_float) : option flt :=
  match z with
  | SpecFloat.S754_zero s => Some (B754_zero s)
  | SpecFloat.S754_finite s m e =>
      match Bool.bool_dec (SpecFloat.bounded prec emax m e) true with left H => Some (B754_finite s m e H) | right _ => None end
  | _ => None
  end.
(** strtod: (-1)^neg * D * 10^E correctly rounded; out of range is a failed extraction. *)
Definition dec_float (neg : bool) (D E : Z) : option flt :=
  if D =? 0 then Some (B754_zero neg)
  else let '(m, e, l) := Fdiv (SpecFloat.fexp prec emax) (Float radix2 (scale_up D E) 0) (Float radix2 (scale_up 1 (- E)) 0) in
       finite_of (binary_round_aux prec emax mode_NE neg m e l).
(** States of the extraction of one number: white space; sign, digits so far (any: at least one), fraction digits k, point
    seen; after the e; after its sign; exponent digits. *)
Inductive fscan :=
| FSkip
| FNum (neg any : bool) (D k : Z) (dot : bool)
| FE (neg : bool) (D k : Z)
| FES (neg : bool) (D k : Z) (eneg : bool)
| FX (neg : bool) (D k : Z) (eneg : bool) (X : Z).
(** The number accumulated when the token ends. *)
Definition fconv (st : fscan) : option flt :=
  match st with
  | FNum neg true D k _ => dec_float neg D (- k)
  | FX neg D k eneg X => dec_float neg D ((if eneg then - X else X) - k)
  | _ => None
  end.
Definition sign_of (a : ascii) : option bool := if Ascii.eqb a "-" then Some true else if Ascii.eqb a "+" then Some false else None.
Definition is_e (a : ascii) : bool := Ascii.eqb a "e" || Ascii.eqb a "E".
(** First character of a token. *)
Definition fbegin (a : ascii) : option fscan :=
  if is_ws a then Some FSkip else
  match digit_of a, sign_of a with
  | Some d, _ => Some (FNum false true d 0 false)
  | None, Some neg => Some (FNum neg false 0 0 false)
  | None, None => if Ascii.eqb a "." then Some (FNum false false 0 0 true) else None
  end.
(** Next character of a token, None if it does not belong to it. *)
Definition fnext (st : fscan) (a : ascii) : option fscan :=
  match st with
  | FSkip => None
  | FNum neg any D k dot =>
      match digit_of a with
      | Some d => Some (FNum neg true (10 * D + d) (if dot then k + 1 else k) dot)
      | None => if Ascii.eqb a "." && negb dot then Some (FNum neg any D k true)
                else if is_e a && any then Some (FE neg D k) else None
      end
  | FE neg D k => match digit_of a, sign_of a with Some d, _ => Some (FX neg D k false d) | None, Some es => Some (FES neg D k es) | None, None => None end
  | FES neg D k es => match digit_of a with Some d => Some (FX neg D k es d) | None => None end
  | FX neg D k es X => match digit_of a with Some d => Some (FX neg D k es (10 * X + d)) | None => None end
  end.
(** [while(is >> x)]: the values, and eof() when an extraction fails. *)
Fixpoint fextract (st : fscan) s : list flt * bool :=
  match s with
  | [] => match fconv st with Some v => ([v], true) | None => ([], true) end
  | a :: s' =>
    match fnext st a with
    | Some st' => fextract st' s'
    | None =>
      match st with
      | FSkip => match fbegin a with Some st' => fextract st' s' | None => ([], false) end
      | _ => match fconv st with
             | Some v => match fbegin a with Some st' => let r := fextract st' s' in (v :: fst r, snd r) | None => ([v], false) end
             | None => ([], false)
             end
      end
    end
  end.
Definition fline_of s : line flt := let r := fextract FSkip s in mkline (match s with [] => true | _ => false end) (fst r) (snd r).
(** strict_IO.hpp 180-187: operator>>(is, Strict<T>&) on a stream with the characters [s]: the value, or the failed ALWAYS
    check (if that is silent the variable gets an unspecified value: UB). *)
Definition read_float (c : cfg) s : outcome flt :=
  match fst (fextract FSkip s) with v :: _ => Ok v | [] => check_always c false ;;; UB end.
(** array_IO.hpp 107-126, 168-197, 348-357 for floating types. *)
Definition read1_ftext (zero : flt) (c : cfg) s (A : arr flt) : mut (arr flt) :=
  let r := fextract FSkip s in read1 zero c (fst r) (snd r) A.
Definition read2_ftext (zero : flt) (c : cfg) s (A : arr2 flt) : mut (arr2 flt) :=
  read2 zero c (map fline_of (getlines [] s)) A.

(** array_IO.hpp 228-264: column and row style, no name, not detailed. *)
Definition fprint1_col (sci : bool) (p : nat) (l : list flt) : text := concat (map (fun x => show_float sci p x ++ [nl]) l).
Fixpoint fjoin (sci : bool) (p w : nat) (l : list flt) : text :=
  match l with
  | [] => []
  | [x] => pad w (show_float sci p x)
  | x :: l' => pad w (show_float sci p x) ++ [sp; sp] ++ fjoin sci p w l'
  end.
Definition fprint1_row (sci : bool) (p : nat) (l : list flt) : text := fjoin sci p 0 l ++ [nl].
(** array_IO.hpp 267-325: two dimensions.  Only the fixed format sets a width (283-299), computed from the logarithm of the
    largest absolute value and converted to int, undefined for infinities and NaN; its value [w] is left arbitrary. *)
Definition fprint2 (sci : bool) (p w : nat) (M : list (list flt)) : outcome text :=
  if sci then Ok (concat (map (fun r => fjoin true p 0 r ++ [nl]) M))
  else mx <- r_max (fun x y => Bltb y x) (src_of_list (map (@Babs prec emax) (concat M))) (B754_zero false) ;;
       if is_finite mx then Ok (concat (map (fun r => fjoin false p w r ++ [nl]) M)) else UB.
End F.
(** strict_IO.hpp 78-85, 162-165: the precisions of the default format, digits10 + 1. *)
Definition float_precision : nat := 7.
Definition double_precision : nat := 16.
Definition long_double_precision : nat := 19.

(** strict_IO.hpp 190-194: operator<<(Strict<bool>). *)
Definition show_bool (b : bool) : text := if b then ["t"; "r"; "u"; "e"]%char else ["f"; "a"; "l"; "s"; "e"]%char.
(** std::num_get for bool without boolalpha: the integers 0 and 1. *)
Definition to_bool (neg : bool) (n : Z) : option bool := if n =? 0 then Some false else if (n =? 1) && negb neg then Some true else None.
Fixpoint bextract (st : scan) (s : text) : list bool * bool :=
  match s with
  | [] => match st with
          | Skip | Sign _ => ([], true)
          | Digits neg n => match to_bool neg n with Some z => ([z], true) | None => ([], true) end
          end
  | a :: s' =>
    match st, digit_of a with
    | Skip, Some d => bextract (Digits false d) s'
    | Sign neg, Some d => bextract (Digits neg d) s'
    | Digits neg n, Some d => bextract (Digits neg (10 * n + d)) s'
    | Skip, None => if is_ws a then bextract Skip s'
                    else if Ascii.eqb a "-" then bextract (Sign true) s'
                    else if Ascii.eqb a "+" then bextract (Sign false) s' else ([], false)
    | Sign _, None => ([], false)
    | Digits neg n, None =>
      match to_bool neg n with
      | Some z => let r := if is_ws a then bextract Skip s'
                           else if Ascii.eqb a "-" then bextract (Sign true) s'
                           else if Ascii.eqb a "+" then bextract (Sign false) s' else ([], false) in
                  (z :: fst r, snd r)
      | None => ([], false)
      end
    end
  end.
Definition bprint1_col (l : list bool) : text := concat (map (fun x => show_bool x ++ [nl]) l).
Definition read1_btext (c : cfg) (s : text) (A : arr bool) : mut (arr bool) := let r := bextract Skip s in read1 false c (fst r) (snd r) A.
