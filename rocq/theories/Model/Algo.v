(** Algorithms run on the iterators of the library: iterator.hpp 162-652, with std::reverse_iterator as made by rbegin and
    rend (derived1D.hpp 135-157).

    An algorithm is any program that uses its iterators only through the operations of a random access iterator.  It keeps
    its iterators in variables numbered in the order of their creation; what it does next may depend on every element it
    reads, every difference and every comparison.  (Not modelled: algorithms that do not end.) *)
From Verif Require Import Base.Outcome Base.ZList Model.Index Model.View2D Model.Iterator.

(** x + n, n + x, x - n, x += n, x -= n, ++x, --x, x++, x--; the count is not used by the last four. *)
Inductive move := MPlus | MPlusL | MMinus | MAddEq | MSubEq | MInc | MDec | MPostInc | MPostDec.

Inductive algo (V R : Type) : Type :=
| Return (r : R)                                    (* the algorithm ends with r *)
| Load (x : nat) (k : V -> algo V R)                (* v = *x *)
| Index (x : nat) (n : Z) (k : V -> algo V R)       (* v = x[n] *)
| Store (x : nat) (v : V) (k : algo V R)            (* *x = v *)
| IndexStore (x : nat) (n : Z) (v : V) (k : algo V R) (* x[n] = v *)
| Move (m : move) (x : nat) (n : Z) (k : algo V R)  (* a new variable holds variable x, moved *)
| Diff (x y : nat) (k : Z -> algo V R)              (* x - y *)
| Comp (o : icmp) (x y : nat) (k : bool -> algo V R). (* x == y, x != y, x < y, ... *)
Arguments Return {V R} r.
Arguments Load {V R} x k.
Arguments Index {V R} x n k.
Arguments Store {V R} x v k.
Arguments IndexStore {V R} x n v k.
Arguments Move {V R} m x n k.
Arguments Diff {V R} x y k.
Arguments Comp {V R} o x y k.

(** The value of a variable: an iterator of the library, or a std::reverse_iterator whose base is one. *)
Record var := mkvar { v_rev : bool; v_it : iter }.

(** Iterator: lines 253-320 and 229-233.  reverse_iterator ([reverse.iterators]): each operation is the opposite one of the
    base; n + r is reverse_iterator(r.base() - n). *)
Definition var_move (c : cfg) (m : move) (x : var) (n : Z) : outcome var :=
  let it := v_it x in
  it' <- (if v_rev x then
            match m with
            | MPlus => r_plus c it n | MPlusL => r_plus c it n | MMinus => it_plus c it n
            | MAddEq => it_subeq c it n | MSubEq => it_addeq c it n
            | MInc => r_inc c it | MDec => r_dec c it | MPostInc => r_inc c it | MPostDec => r_dec c it
            end
          else
            match m with
            | MPlus => it_plus c it n | MPlusL => it_plus_l c n it | MMinus => it_minus c it n
            | MAddEq => it_addeq c it n | MSubEq => it_subeq c it n
            | MInc => it_inc c it | MDec => it_dec c it
            | MPostInc => ' p <- it_post_inc c it ;; Ok (snd p) | MPostDec => ' p <- it_post_dec c it ;; Ok (snd p)
            end) ;;
  Ok (mkvar (v_rev x) it').
(** *x: lines 340-345; the element of a reverse iterator is the one before its base. *)
Definition var_ref (c : cfg) (E : env Z) (x : var) : outcome Z :=
  if v_rev x then r_deref c E (v_it x) else it_deref c E (v_it x).
(** x[n]: lines 332-337; r[n] of a reverse iterator is *(r + n). *)
Definition var_index (c : cfg) (E : env Z) (x : var) (n : Z) : outcome Z :=
  if v_rev x then it' <- r_plus c (v_it x) n ;; r_deref c E it' else it_sub c E (v_it x) n.
(** x - y: lines 323-329.  The difference of an iterator and a reverse iterator does not compile: UB stands for that. *)
Definition var_diff (c : cfg) (x y : var) : outcome Z :=
  match v_rev x, v_rev y with
  | false, false => it_diff c (v_it x) (v_it y)
  | true, true => r_diff c (v_it x) (v_it y)
  | _, _ => UB
  end.
(** Lines 356-401; r1 < r2 of reverse iterators is r1.base() > r2.base(). *)
Definition opposite (o : icmp) : icmp := match o with IEq => IEq | INe => INe | ILt => IGt | ILe => IGe | IGt => ILt | IGe => ILe end.
Definition var_comp (c : cfg) (o : icmp) (x y : var) : outcome bool :=
  match v_rev x, v_rev y with
  | false, false => it_cmp c o (v_it x) (v_it y)
  | true, true => it_cmp c (opposite o) (v_it x) (v_it y)
  | _, _ => UB
  end.
Definition var_of (xs : list var) (x : nat) : outcome var := match nth_error xs x with Some v => Ok v | None => UB end.

(** Running an algorithm over the storage s in which all objects have their elements: the environment gives the position in
    the storage of the element an iterator refers to.  A reported error leaves what was stored before. *)
Inductive run_result (V R : Type) : Type := RDone (r : R) (s : list V) | RFail (f : failure) (s : list V) | RUB.
Arguments RDone {V R} r s.
Arguments RFail {V R} f s.
Arguments RUB {V R}.
Definition then_ {V R A} (s : list V) (m : outcome A) (k : A -> run_result V R) : run_result V R :=
  match m with Ok a => k a | Fail f => RFail f s | UB => RUB end.
Fixpoint run {V R} (c : cfg) (E : env Z) (a : algo V R) (xs : list var) (s : list V) : run_result V R :=
  match a with
  | Return r => RDone r s
  | Load x k => then_ s (v <- var_of xs x ;; p <- var_ref c E v ;; oget s p) (fun v => run c E (k v) xs s)
  | Index x n k => then_ s (v <- var_of xs x ;; p <- var_index c E v n ;; oget s p) (fun v => run c E (k v) xs s)
  | Store x w k => then_ s (v <- var_of xs x ;; p <- var_ref c E v ;; oset s p w) (fun s' => run c E k xs s')
  | IndexStore x n w k => then_ s (v <- var_of xs x ;; p <- var_index c E v n ;; oset s p w) (fun s' => run c E k xs s')
  | Move m x n k => then_ s (v <- var_of xs x ;; var_move c m v n) (fun v' => run c E k (xs ++ [v']) s)
  | Diff x y k => then_ s (v <- var_of xs x ;; w <- var_of xs y ;; var_diff c v w) (fun d => run c E (k d) xs s)
  | Comp o x y k => then_ s (v <- var_of xs x ;; w <- var_of xs y ;; var_comp c o v w) (fun b => run c E (k b) xs s)
  end.

(** begin, end, rbegin and rend: derived1D.hpp 103-157, derived2D.hpp 142-196. *)
Definition v_begin (p : Z) : var := mkvar false (it_begin p).
Definition v_end (E : env Z) (p : Z) : outcome var := e <- it_end E p ;; Ok (mkvar false e).
Definition v_rbegin (E : env Z) (p : Z) : outcome var := e <- it_end E p ;; Ok (mkvar true e).
Definition v_rend (p : Z) : var := mkvar true (it_begin p).

(** operator->: lines 348-353, &f_(pos).  The result is the position in the storage the pointer points to; nothing is read
    there.  Simplified: taking the address of data_[n] in an array of n elements is a valid pointer past the end. *)
Definition it_arrow (c : cfg) (E : env Z) (it : iter) : outcome Z :=
  somewhere c it ;;;
  check_debug c (F <- target E it ;; n <- f_size F ;; Ok ((-1 <? it_pos it) && (it_pos it <? n))) ;;;
  F <- target E it ;; f_at F (it_pos it).
(** std::to_address of the standard library, which is noexcept and calls operator->. *)
Definition to_address (c : cfg) (E : env Z) (it : iter) : outcome Z := noexcept (it_arrow c E it).
(** data(): array_base1D.hpp 483-492, array_base2D.hpp 695-704: the first element; null (None) if there are none. *)
Definition o_data (n : Z) : option Z := if n =? 0 then None else Some 0.
(** std::span(first, last) for iterators of a contiguous range: std::to_address(first) and last - first.  The standard's
    constructor may report nothing: an exception from it terminates only where to_address is noexcept. *)
Definition span_of (c : cfg) (E : env Z) (first last : iter) : outcome (Z * Z) :=
  p <- to_address c E first ;; n <- it_diff c last first ;; Ok (p, n).
