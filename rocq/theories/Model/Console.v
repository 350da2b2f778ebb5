(** Output streams, the printing formats, and printing to and reading from streams, the console and files:
    StrictCommon/strict_IO.hpp 78-222, 267-290, array_IO.hpp 64-97, 228-423.  Unlike in Layout.v the elements are those of any one- or
    two-dimensional object, computed while the text is written, and a stream keeps what was written before a failure. *)
From Coq Require Import Ascii.
From Flocq Require Import Core BinarySingleNaN.
From Verif Require Import Base.Outcome Base.ZList Model.IntModel Model.ScalarOps Model.Index Model.Array1D Model.Array2D Model.Expr Model.Reduce Model.FloatModel.
From Verif Require Import Model.Scalars Model.ArrayIO Model.FloatIO Model.Layout.

(** ** Streams *)
(** std::ostream of the standard library: the flags that the library sets (std::showpos, std::showpoint, std::fixed or std::scientific), the
    precision, the field width, and the text.  The other flags (base, adjustment, case, fill) have their initial values. *)
Inductive floatfield := General | Fixed | Scientific.
Record stream := mkos { os_pos : bool; os_point : bool; os_field : floatfield; os_prec : Z; os_width : Z; os_text : text }.
(** std::ostringstream stream. *)
Definition fresh : stream := mkos false false General 6 0 [].
(** os << s for a string or a character: padded to the field width, which is then zero. *)
Definition put (s : text) (os : stream) : stream :=
  mkos (os_pos os) (os_point os) (os_field os) (os_prec os) 0 (os_text os ++ pad (Z.to_nat (os_width os)) s).
(** os << std::setw(w). *)
Definition setw (w : Z) (os : stream) : stream := mkos (os_pos os) (os_point os) (os_field os) (os_prec os) w (os_text os).
(** os << x for a built-in integer; '+' only for signed types. *)
Definition put_int (t : ity) (x : Z) (os : stream) : stream :=
  put ((if x <? 0 then ["-"%char] else if os_pos os && signed t then ["+"%char] else []) ++ udec (Z.abs x)) os.

(** ** Formats *)
(** strict_IO.hpp 78-175: StrictFormat, the global variable format; the precisions are ints. *)
Record format := mkformat { f_sci : bool; f_prec : fmt -> Z }.
(** strict_IO.hpp 82-89 (reset) and 155-160: digits10 + 1 of float, double, long double; 33.  Also the initial state. *)
Definition format_reset : format := mkformat true (fun f => match f with F32 => 7 | F64 => 16 | F80 => 19 | F128 => 33 end).
(** strict_IO.hpp 95-98. *)
Definition format_scientific (b : bool) (fm : format) : format := mkformat b (f_prec fm).
(** strict_IO.hpp 114-143: precision(n) and precision_float(n), ..., precision_quad(n); [which] is the set of types.  The argument is an
    ImplicitNonNegInt; static_cast<int> of a long is modulo 2^32. *)
Definition format_precision (c : cfg) (which : fmt -> bool) (n : Z) (fm : format) : outcome format :=
  k <- nonneg_arg c n ;; Ok (mkformat (f_sci fm) (fun f => if which f then icast I32 k else f_prec fm f)).
(** std::setprecision with a negative argument: printing uses 6 digits (as printf does for a negative precision). *)
Definition used_prec (p : Z) : nat := if p <? 0 then 6 else Z.to_nat p.
(** array_IO.hpp 64-97: ArrayFormat, the global variable array_format. *)
Record aformat := mkaformat { a_detailed : bool; a_row : bool }.
Definition aformat_reset : aformat := mkaformat false false.

(** ** Numbers *)
(** strict_IO.hpp 191-195, 198-204, 207-216: operator<< of Strict<T>: the flags it sets, then the text. *)
Definition set_int (os : stream) : stream := mkos true (os_point os) (os_field os) (os_prec os) (os_width os) (os_text os).
Definition set_flt (f : fmt) (fm : format) (os : stream) : stream :=
  mkos true true (if f_sci fm then Scientific else Fixed) (f_prec fm f) (os_width os) (os_text os).
Definition show_flt (f : fmt) (fm : format) (x : flt f) : text := show_float (fprec f) (femax f) (f_sci fm) (used_prec (f_prec fm f)) x.
(** os << i.sul(): a Strict<unsigned long> (strict_val.hpp 246), so with std::showpos. *)
Definition put_index (i : Z) (os : stream) : stream := put (show U64 i) (set_int os).
(** Quadruple precision has operators of its own (strict_IO.hpp 222-263), QuadIO.v: [VF F128] is meant for no call. *)
Definition put_value (fm : format) (v : value) (os : stream) : stream :=
  match v with
  | VB b => put (show_bool b) os
  | VI t z => put (show t z) (set_int os)
  | VF f x => put (show_flt f fm x) (set_flt f fm os)
  end.

(** ** Arrays *)
Definition lift1 {A} (m : outcome A) (os : stream) (k : A -> mut stream) : mut stream :=
  match m with Ok a => k a | Fail f => MFail f os | UB => MUB end.
(** array_IO.hpp 231-233, 304-306: os << name << ':' << '\n'. *)
Definition put_name (name : text) (os : stream) : stream := match name with [] => os | _ => put [nl] (put [":"%char] (put name os)) end.
(** array_IO.hpp 235-237, 308-310. *)
Definition put_empty (detailed : bool) (n : Z) (os : stream) : stream := if detailed && (n =? 0) then put ["["; "]"; nl]%char os else os.

Section A.
Context (lg : flt F64 -> flt F64) {V : Type} (set : stream -> stream) (shown : V -> text).
Definition put_elem (v : V) (os : stream) : stream := put (shown v) (set os).
(** array_IO.hpp 228-264: one dimension.  Everything left of an operand of << is written before the operand is evaluated. *)
Definition ostream_print1 (af : aformat) (name : text) (A : src1 V) (os : stream) : mut stream :=
  let os := put_empty (a_detailed af) (ssize A) (put_name name os) in
  mseq (mfor 0 (ssize A) (fun i os =>
    if a_row af then
      let spaces := if i =? ssize A - 1 then [] else [sp; sp] in
      let os := if a_detailed af then put [sp] (put ["]"; " "; "="]%char (put_index i (put ["["%char] os))) else os in
      lift1 (sun A i) os (fun v => MOk (put spaces (put_elem v os)))
    else if a_detailed af then
      let os := put ["]"; " "; "="]%char (put_index i (put ["["%char] os)) in
      lift1 (smart_spaces lg (ssize A) i) os (fun s =>
        let os := put s os in lift1 (sun A i) os (fun v => MOk (put [nl] (put_elem v os))))
    else lift1 (sun A i) os (fun v => MOk (put [nl] (put_elem v os)))) os)
  (fun os => MOk (if a_row af then put [nl] os else os)).
(** array_IO.hpp 301-325: two dimensions; [maxi] is max_if_needed(A) (267-280), [width] the argument of std::setw in
    set_width_if_needed (283-299), if any. *)
Definition ostream_print2 {W} (maxi : outcome W) (width : W -> outcome (option Z)) (af : aformat) (name : text) (A : src2 V) (os : stream) : mut stream :=
  let os := put_empty (a_detailed af) (s2size A) (put_name name os) in
  lift1 maxi os (fun w =>
    mfor 0 (s2rows A) (fun i os =>
      mseq (mfor 0 (s2cols A) (fun j os =>
        let post := if j =? s2cols A - 1 then [] else [sp; sp] in
        let label k := if a_detailed af
          then let os := put ["]"; " "; "="]%char (put_index j (put [","; " "]%char (put_index i (put ["["%char] os)))) in
               lift1 (smart_spaces lg (s2rows A) i) os (fun s => k (put s os))
          else k os in
        label (fun os => lift1 (width w) os (fun q =>
          let os := match q with Some k => setw k os | None => os end in
          lift1 (s2un A i j) os (fun v => MOk (put post (put_elem v os)))))) os)
      (fun os => MOk (put [nl] os))) os).
End A.

(** Something that can be printed: ostream_base_print for this object, depending on the two formats and the name. *)
Definition printable := format -> aformat -> text -> stream -> mut stream.
(** array_IO.hpp 267-299 for the kinds of element.  [lg f] is std::log10 for the type f. *)
Section P.
Context (lg : forall f : fmt, flt f -> flt f).

Definition ints1 (t : ity) (A : src1 Z) : printable := fun _ af name => ostream_print1 (lg F64) set_int (show t) af name A.
Definition bools1 (A : src1 bool) : printable := fun _ af name => ostream_print1 (lg F64) (fun os => os) show_bool af name A.
Definition flts1 (f : fmt) (A : src1 (flt f)) : printable := fun fm af name => ostream_print1 (lg F64) (set_flt f fm) (show_flt f fm) af name A.
Definition ints2 (t : ity) (A : src2 Z) : printable := fun _ af name =>
  ostream_print2 (lg F64) set_int (show t) (r_max Z.gtb (x_un (abss t) (flat2 A)) 0) (fun m => w <- integer_spacing (lg F64) t m ;; Ok (Some w)) af name A.
Definition bools2 (A : src2 bool) : printable := fun _ af name =>
  ostream_print2 (lg F64) (fun os => os) show_bool (Ok tt) (fun _ => Ok (Some boolean_spacing)) af name A.
(** floating_spacing (216-218) with a precision that may be negative; Babs as in Layout.v. *)
Definition flt_width (f : fmt) (p : Z) (x : flt f) : outcome Z := d <- count_digit (lg f) x ;; w <- iadd I32 d p ;; iadd I32 w 2.
Definition flts2 (f : fmt) (A : src2 (flt f)) : printable := fun fm af name =>
  ostream_print2 (lg F64) (set_flt f fm) (show_flt f fm)
    (r_max (fun x y => Bltb y x) (x_un (fun x => Ok (Babs x)) (flat2 A)) (B754_zero false))
    (fun m => if f_sci fm then Ok None else w <- flt_width f (f_prec fm f) m ;; Ok (Some w)) af name A.
End P.

(** array_IO.hpp 418-423: os << indexes for a std::vector<ImplicitInt>. *)
Definition put_indexes (l : list Z) (os : stream) : stream := fold_left (fun os x => put [nl] (put (show I64 x) (set_int os))) l os.

(** ** The console and files *)
(** What these functions can change: std::cout, the files (paths to contents; None: no such file) and the two formats. *)
Definition path := text.
Record world := mkw { w_out : stream; w_files : path -> option text; w_fmt : format; w_afmt : aformat }.
Definition with_out (os : stream) (w : world) : world := mkw os (w_files w) (w_fmt w) (w_afmt w).
Definition text_eqb (p q : path) : bool := if list_eq_dec ascii_dec p q then true else false.
Definition with_file (p : path) (s : text) (w : world) : world :=
  mkw (w_out w) (fun q => if text_eqb q p then Some s else w_files w q) (w_fmt w) (w_afmt w).

(** array_IO.hpp 381-383: std::cout << A. *)
Definition cout_array (P : printable) (w : world) : mut world :=
  mbind (P (w_fmt w) (w_afmt w) [] (w_out w)) (fun os => MOk (with_out os w)) (fun os => with_out os w).
(** std::cout << x for a Strict number. *)
Definition cout_value (v : value) (w : world) : world := with_out (put_value (w_fmt w) v (w_out w)) w.
(** array_IO.hpp 386-390: print(A, name), through a string stream. *)
Definition print_array (P : printable) (name : text) (w : world) : mut world :=
  match P (w_fmt w) (w_afmt w) name fresh with
  | MOk s => MOk (with_out (put (os_text s) (w_out w)) w)
  | MFail f _ => MFail f w
  | MUB => MUB
  end.
(** array_IO.hpp 328-341, 393-396: print(A, B, ...). *)
Fixpoint print_arrays (Ps : list printable) (w : world) : mut world :=
  match Ps with
  | [] => MOk w
  | [P] => print_array P [] w
  | P :: Ps' =>
      match P (w_fmt w) (w_afmt w) [] fresh with
      | MOk s => print_arrays Ps' (with_out (put (os_text (put [nl] s)) (w_out w)) w)
      | MFail f _ => MFail f w
      | MUB => MUB
      end
  end.
(** array_IO.hpp 399-402: printn(A, name). *)
Definition printn_array (P : printable) (name : text) (w : world) : mut world :=
  mseq (print_array P name w) (fun w => MOk (with_out (put [nl] (w_out w)) w)).
(** array_IO.hpp 405-408: printn(A, B, ...). *)
Fixpoint printn_arrays (Ps : list printable) (w : world) : mut world :=
  match Ps with [] => MOk w | P :: Ps' => mseq (printn_array P [] w) (printn_arrays Ps') end.
(** strict_IO.hpp 267-274: print(x, name) of a number. *)
Definition print_value (v : value) (name : text) (w : world) : world :=
  let s := put_value (w_fmt w) v (match name with [] => fresh | _ => put [nl] (put [":"%char] (put name fresh)) end) in
  with_out (put [nl] (put (os_text s) (w_out w))) w.
(** strict_IO.hpp 277-279: print(x, y, ...). *)
Definition print_values (vs : list value) (w : world) : world := fold_left (fun w v => print_value v [] w) vs w.
(** strict_IO.hpp 282-285 and 288-291: printn(x, name) and printn(x, y, ...). *)
Definition printn_value (v : value) (name : text) (w : world) : world := let w := print_value v name w in with_out (put [nl] (w_out w)) w.
Definition printn_values (vs : list value) (w : world) : world := let w := print_values vs w in with_out (put [nl] (w_out w)) w.

Section F.
(** Whether a file can be opened for writing, for reading (if it exists). *)
Context (can_write can_read : path -> bool).
(** array_IO.hpp 411-416: print_to_file.  Opening empties the file; an exception closes it with what was written (after a failed assert what
    was written may be lost).  Writing to a stream that is not open has no effect. *)
Definition print_to_file (c : cfg) (p : path) (P : printable) (name : text) (w : world) : mut world :=
  match check_always c (can_write p) with
  | Ok _ =>
      if can_write p
      then mbind (P (w_fmt w) (w_afmt w) name fresh) (fun s => MOk (with_file p (os_text s) w)) (fun s => with_file p (os_text s) w)
      else match P (w_fmt w) (w_afmt w) name fresh with MOk _ => MOk w | MFail f _ => MFail f w | MUB => MUB end
  | Fail f => MFail f w
  | UB => MUB
  end.
Definition opened (p : path) (w : world) : option text := if can_read p then w_files w p else None.
(** array_IO.hpp 359-374: read_from_file; [rd] reads from the text of the file, [rd0] from a stream that is not open. *)
Definition read_from_file {S} (c : cfg) (p : path) (rd : text -> S -> mut S) (rd0 : S -> mut S) (w : world) (A : S) : mut S :=
  match check_always c (match opened p w with Some _ => true | None => false end) with
  | Ok _ => match opened p w with Some s => rd s A | None => rd0 A end
  | Fail f => MFail f A
  | UB => MUB
  end.
(** The element types; a stream that is not open gives no numbers and is not at its end, and has no lines. *)
Definition read_file_ints1 (c : cfg) (t : ity) (p : path) := read_from_file c p (read1_text c t) (read1 0 c [] false).
Definition read_file_ints2 (c : cfg) (t : ity) (p : path) := read_from_file c p (read2_text c t) (read2 0 c []).
Definition read_file_flts1 (c : cfg) (f : fmt) (p : path) :=
  read_from_file c p (read1_ftext (fprec f) (femax f) (B754_zero false) c) (read1 (B754_zero false : flt f) c [] false).
Definition read_file_flts2 (c : cfg) (f : fmt) (p : path) :=
  read_from_file c p (read2_ftext (fprec f) (femax f) (B754_zero false) c) (read2 (B754_zero false : flt f) c []).
End F.
