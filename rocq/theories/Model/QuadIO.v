(** Reading and printing numbers of quadruple precision: StrictCommon/strict_IO.hpp 219-263, and array_IO.hpp for arrays of them.  The
    functions of libquadmath are taken by their documentation: strtoflt128 as strtod, quadmath_snprintf as snprintf, conversions
    rounded to nearest, ties to even. *)
From Coq Require Import Ascii.
From Flocq Require Import Core BinarySingleNaN.
From Verif Require Import Base.Outcome Base.ZList Model.IntModel Model.Index Model.Array1D Model.Array2D Model.Expr Model.FloatModel Model.Scalars Model.ArrayIO Model.FloatIO Model.Layout Model.Console.

Notation quad := (flt F128).
Notation qp := (fprec F128).
Notation qe := (femax F128).

(** ** strtoflt128 *)
Definition lower (a : ascii) : ascii := let n := nat_of_ascii a in if (65 <=? Z.of_nat n) && (Z.of_nat n <=? 90) then ascii_of_nat (n + 32) else a.
Definition upper (a : ascii) : ascii := let n := nat_of_ascii a in if (97 <=? Z.of_nat n) && (Z.of_nat n <=? 122) then ascii_of_nat (n - 32) else a.
(** Digits 0-9, a-f, A-F. *)
Definition hex_of (a : ascii) : option Z :=
  match digit_of a with
  | Some d => Some d
  | None => let n := Z.of_nat (nat_of_ascii (lower a)) in if (97 <=? n) && (n <=? 102) then Some (n - 87) else None
  end.
(** The longest prefix of digits, and the rest. *)
Fixpoint span (dg : ascii -> option Z) (s : text) : list Z * text :=
  match s with
  | [] => ([], [])
  | a :: s' => match dg a with Some d => let r := span dg s' in (d :: fst r, snd r) | None => ([], s) end
  end.
Definition value_of (b : Z) (ds : list Z) : Z := fold_left (fun v d => b * v + d) ds 0.
(** An optional exponent: the marker, a sign, digits; if incomplete it does not belong to the number. *)
Definition exp_part (mark : ascii) (s : text) : Z * text :=
  match s with
  | a :: s1 =>
      if Ascii.eqb (lower a) mark then
        let '(neg, s2) := match s1 with
                          | g :: s2 => match sign_of g with Some neg => (neg, s2) | None => (false, s1) end
                          | [] => (false, s1)
                          end in
        match span digit_of s2 with
        | ([], _) => (0, s)
        | (ds, s3) => let n := value_of 10 ds in (if neg then - n else n, s3)
        end
      else (0, s)
  | [] => (0, s)
  end.
(** Digits with an optional point, then an exponent: all digits as a number, how many are after the point, the exponent, the rest. *)
Definition num_part (dg : ascii -> option Z) (b : Z) (mark : ascii) (s : text) : option (Z * Z * Z * text) :=
  let '(ds, s1) := span dg s in
  let '(fs, s2) := match s1 with a :: s' => if Ascii.eqb a "." then span dg s' else ([], s1) | [] => ([], s1) end in
  match ds ++ fs with
  | [] => None
  | l => let '(x, s3) := exp_part mark s2 in Some (value_of b l, zlen fs, x, s3)
  end.
(** (-1)^neg * N * 10^E and (-1)^neg * N * 2^E; out of range is an infinity (errno is not looked at). *)
Definition dec_quad (neg : bool) (N E : Z) : quad := match dec_float qp qe neg N E with Some x => x | None => B754_infinity neg end.
Definition hex_quad (neg : bool) (N E : Z) : quad := binary_normalize qp qe _ _ mode_NE (if neg then - N else N) E neg.
(** A word in small or capital letters. *)
Fixpoint word (w s : text) : option text :=
  match w, s with
  | [], _ => Some s
  | b :: w', a :: s' => if Ascii.eqb (lower a) b then word w' s' else None
  | _ :: _, [] => None
  end.
(** nan, or nan followed by letters, digits and underscores in parentheses. *)
Definition is_alnum (a : ascii) : bool :=
  let n := Z.of_nat (nat_of_ascii (lower a)) in ((97 <=? n) && (n <=? 122)) || match digit_of a with Some _ => true | None => false end || Ascii.eqb a "_".
Fixpoint to_paren (s : text) : option text :=
  match s with a :: s' => if Ascii.eqb a ")" then Some s' else if is_alnum a then to_paren s' else None | [] => None end.
Definition nan_rest (s : text) : text := match s with a :: s' => if Ascii.eqb a "(" then match to_paren s' with Some r => r | None => s end else s | [] => s end.
(** The value and where the number ends: the rest of the text; all of it if there is no number.  Leading white space, which
    strtoflt128 would skip, does not occur in a token. *)
Definition strto_unsigned (neg : bool) (s : text) : option (quad * text) :=
  match word ["i"; "n"; "f"; "i"; "n"; "i"; "t"; "y"]%char s with
  | Some r => Some (B754_infinity neg, r)
  | None =>
  match word ["i"; "n"; "f"]%char s with
  | Some r => Some (B754_infinity neg, r)
  | None =>
  match word ["n"; "a"; "n"]%char s with
  | Some r => Some (B754_nan, nan_rest r)
  | None =>
  match (match word ["0"; "x"]%char s with Some r => num_part hex_of 16 "p" r | None => None end) with
  | Some (n, k, x, r) => Some (hex_quad neg n (x - 4 * k), r)
  | None =>
  match num_part digit_of 10 "e" s with
  | Some (n, k, x, r) => Some (dec_quad neg n (x - k), r)
  | None => None
  end end end end end.
Definition strtoflt128 (s : text) : quad * text :=
  match (match s with
         | a :: s' => match sign_of a with Some neg => strto_unsigned neg s' | None => strto_unsigned false s end
         | [] => None
         end) with
  | Some r => r
  | None => (B754_zero false, s)
  end.

(** ** operator>> *)
(** str.c_str(): strlen ends at a null character. *)
Definition nul : ascii := "000"%char.
Fixpoint c_str (s : text) : text := match s with [] => [] | a :: s' => if Ascii.eqb a nul then [] else a :: c_str s' end.
(** is >> str until it fails: the tokens between white space. *)
Fixpoint tokens (cur s : text) : list text :=
  let close := match cur with [] => [] | _ => [rev cur] end in
  match s with
  | [] => close
  | a :: s' => if is_ws a then close ++ tokens [] s' else tokens (a :: cur) s'
  end.
(** strict_IO.hpp 222-232: the value of a token, and whether all of it was used. *)
Definition quad_token (s : text) : quad * bool := let r := strtoflt128 (c_str s) in (fst r, match snd r with [] => true | _ => false end).
(** strict_IO.hpp 222-241: operator>>(is, Strict<float128>&) on a stream with the characters [s]: at its end str is empty. *)
Definition read_quad (c : cfg) (s : text) : outcome quad :=
  let r := quad_token (match tokens [] s with t :: _ => t | [] => [] end) in check_always c (snd r) ;;; Ok (fst r).
(** [while(is >> x)].  A token that fails the check ends the loop with the same failure as the check is.eof() after the loop
    (array_IO.hpp 120, 148, 163) would give, so it is represented by eof() = false; if the checks are silent the loop goes on. *)
Fixpoint quads_of (c : cfg) (toks : list text) : list quad * bool :=
  match toks with
  | [] => ([], true)
  | t :: r =>
      let v := quad_token t in
      match check_always c (snd v) with Ok _ => let q := quads_of c r in (fst v :: fst q, snd q) | _ => ([], false) end
  end.
Definition qextract (c : cfg) (s : text) : list quad * bool := quads_of c (tokens [] s).
Definition qline_of (c : cfg) (s : text) : line quad := let r := qextract c s in mkline (match s with [] => true | _ => false end) (fst r) (snd r).
(** array_IO.hpp 107-126, 168-197, 348-357 for float128. *)
Definition read1_qtext (c : cfg) (s : text) (A : arr quad) : mut (arr quad) := let r := qextract c s in read1 (B754_zero false) c (fst r) (snd r) A.
Definition read2_qtext (c : cfg) (s : text) (A : arr2 quad) : mut (arr2 quad) := read2 (B754_zero false) c (map (qline_of c) (getlines [] s)) A.

(** ** operator<< *)
(** strict_IO.hpp 245-257: "%+-#*.pQE" with width p + 7, "%+-#*.pQF" with width p + 3: capital letters, blanks on the right.  The buffer
    holds 127 characters and the terminating null character.  The sign bit of a NaN is not modelled. *)
Definition quad_field (fm : format) : Z := f_prec fm F128 + (if f_sci fm then 7 else 3).
Definition quad_full (fm : format) (x : quad) : text := map upper (show_float qp qe (f_sci fm) (Z.to_nat (f_prec fm F128)) x).
Definition quad_text (fm : format) (x : quad) : text :=
  let s := quad_full fm x in firstn 127 (s ++ repeat sp (Z.to_nat (quad_field fm) - length s)).
(** A negative precision makes the conversion specification invalid; p + 7 is computed in int.  (Failures of quadmath_snprintf for lack of memory
    are not modelled.) *)
Definition quad_ok (fm : format) (x : quad) : outcome quad :=
  if f_prec fm F128 <? 0 then UB else _ <- iadd I32 (f_prec fm F128) (if f_sci fm then 7 else 3) ;; Ok x.
(** strict_IO.hpp 245-262: os << x. *)
Definition put_quad (fm : format) (x : quad) (os : stream) : mut stream := lift1 (quad_ok fm x) os (fun x => MOk (put (quad_text fm x) os)).
(** array_IO.hpp 228-264 for float128.  (In two dimensions std::log10(float128), array_IO.hpp 204, is not a function of the standard library.) *)
Definition quads1 (lg : forall f : fmt, flt f -> flt f) (A : src1 quad) : printable := fun fm af name =>
  ostream_print1 (lg F64) (fun os => os) (quad_text fm) af name (x_un (quad_ok fm) A).
(** array_IO.hpp 359-374 for float128. *)
Definition read_file_quads1 (can_read : path -> bool) (c : cfg) (p : path) := read_from_file can_read c p (read1_qtext c) (read1 (B754_zero false : quad) c [] false).
