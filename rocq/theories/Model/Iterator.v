(** Iterators: iterator.hpp.

    An iterator is the address of the object it was taken from (or null) and a position; the objects themselves live
    in an environment indexed by address.  Iterator and ConstIterator (lines 162-406 and 411-652) have the same code,
    so one definition models both; what differs is only whether the element reached may be assigned to. *)
From Verif Require Import Base.Outcome Base.ZList Model.Index Model.View2D.

Record iter := mkit { it_ptr : option Z; it_pos : Z }.

(** IndexFlag / RowFlag / ColFlag and their const versions (lines 22-137): the number of things an iterator of this
    kind walks over and access to number i. *)
Record flag (R : Type) := mkflag { f_size : outcome Z; f_at : Z -> outcome R }.
Arguments mkflag {R} f_size f_at.
Arguments f_size {R} f.
Arguments f_at {R} f i.

(** The objects alive, by address. *)
Definition env (R : Type) := Z -> flag R.

(** Lines 403-406: points_somewhere. *)
Definition it_somewhere (it : iter) : bool := match it_ptr it with Some _ => true | None => false end.
Definition same_ptr (a b : iter) : bool :=
  match it_ptr a, it_ptr b with
  | Some p, Some q => p =? q
  | None, None => true
  | _, _ => false
  end.

(** Lines 238-242: the default constructor. *)
Definition it_null : iter := mkit None (-1).
(** Lines 245-250: Iterator(A, pos). *)
Definition it_make (p pos : Z) : iter := mkit (Some p) pos.

(** derived1D.hpp 103-129, derived2D.hpp 142-168, iterator.hpp RowIt 753-786 and ColIt 846-879: begin and end. *)
Definition it_begin (p : Z) : iter := it_make p 0.
Definition it_end {R} (E : env R) (p : Z) : outcome iter := n <- f_size (E p) ;; Ok (it_make p n).

Definition somewhere (c : cfg) (it : iter) : outcome unit := check_debug c (Ok (it_somewhere it)).

(** Lines 287-292 and 295-300: += and -=. *)
Definition it_addeq (c : cfg) (it : iter) (k : Z) : outcome iter :=
  somewhere c it ;;; p <- ladd (it_pos it) k ;; Ok (mkit (it_ptr it) p).
Definition it_subeq (c : cfg) (it : iter) (k : Z) : outcome iter :=
  somewhere c it ;;; p <- lsub (it_pos it) k ;; Ok (mkit (it_ptr it) p).
(** Lines 253-258 and 261-266: prefix ++ and --. *)
Definition it_inc (c : cfg) (it : iter) : outcome iter :=
  somewhere c it ;;; p <- ladd (it_pos it) 1 ;; Ok (mkit (it_ptr it) p).
Definition it_dec (c : cfg) (it : iter) : outcome iter :=
  somewhere c it ;;; p <- lsub (it_pos it) 1 ;; Ok (mkit (it_ptr it) p).
(** Lines 269-275 and 278-284: postfix ++ and --; the result is (value returned, iterator afterwards). *)
Definition it_post_inc (c : cfg) (it : iter) : outcome (iter * iter) :=
  somewhere c it ;;; it' <- it_inc c it ;; Ok (it, it').
Definition it_post_dec (c : cfg) (it : iter) : outcome (iter * iter) :=
  somewhere c it ;;; it' <- it_dec c it ;; Ok (it, it').
(** Lines 303-310, 313-320 and 229-233: it + k, it - k, k + it. *)
Definition it_plus (c : cfg) (it : iter) (k : Z) : outcome iter := somewhere c it ;;; it_addeq c it k.
Definition it_minus (c : cfg) (it : iter) (k : Z) : outcome iter := somewhere c it ;;; it_subeq c it k.
Definition it_plus_l (c : cfg) (k : Z) (it : iter) : outcome iter := somewhere c it ;;; it_plus c it k.
(** Lines 323-329: the difference of two iterators. *)
Definition it_diff (c : cfg) (a b : iter) : outcome Z :=
  somewhere c a ;;; check_debug c (Ok (same_ptr a b)) ;;; lsub (it_pos a) (it_pos b).

(** The object behind an iterator; using the null one is undefined. *)
Definition target {R} (E : env R) (it : iter) : outcome (flag R) :=
  match it_ptr it with Some p => Ok (E p) | None => UB end.

(** Lines 332-337: it[k].  The condition computes pos + k twice and is evaluated completely. *)
Definition it_sub {R} (c : cfg) (E : env R) (it : iter) (k : Z) : outcome R :=
  somewhere c it ;;;
  check_debug c (F <- target E it ;; oand (p <- ladd (it_pos it) k ;; Ok (-1 <? p))
                                         (p <- ladd (it_pos it) k ;; n <- f_size F ;; Ok (p <? n))) ;;;
  F <- target E it ;; p <- ladd (it_pos it) k ;; f_at F p.
(** Lines 340-345 (and 348-353, operator->): *it. *)
Definition it_deref {R} (c : cfg) (E : env R) (it : iter) : outcome R :=
  somewhere c it ;;;
  check_debug c (F <- target E it ;; n <- f_size F ;; Ok ((-1 <? it_pos it) && (it_pos it <? n))) ;;;
  F <- target E it ;; f_at F (it_pos it).

(** Lines 356-401: == != < <= > >=. *)
Inductive icmp := IEq | INe | ILt | ILe | IGt | IGe.
Definition cmp_pos (k : icmp) (x y : Z) : bool :=
  match k with
  | IEq => x =? y | INe => negb (x =? y) | ILt => x <? y | ILe => x <=? y | IGt => y <? x | IGe => y <=? x
  end.
Definition it_cmp (c : cfg) (k : icmp) (a b : iter) : outcome bool :=
  somewhere c a ;;; check_debug c (Ok (same_ptr a b)) ;;; Ok (cmp_pos k (it_pos a) (it_pos b)).

(** for(auto it = first; it != last; ++it) visit( *it ): the range-based loop.  [fuel] bounds the number of tests of the
    loop condition; running out of it stands for a loop that is still running. *)
Fixpoint it_walk {R} (fuel : nat) (c : cfg) (E : env R) (it last : iter) : outcome (list R) :=
  match fuel with
  | O => UB
  | Datatypes.S k =>
      b <- it_cmp c INe it last ;;
      if b then r <- it_deref c E it ;; it' <- it_inc c it ;; rs <- it_walk k c E it' last ;; Ok (r :: rs) else Ok []
  end.

(** std::reverse_iterator of the standard library over these iterators, as made by rbegin and rend (derived1D.hpp
    135-157): it holds the base iterator; *r is the element before it; ++r moves it back; r1 != r2 compares bases. *)
Definition r_deref {R} (c : cfg) (E : env R) (base : iter) : outcome R := it' <- it_dec c base ;; it_deref c E it'.
Definition r_inc (c : cfg) (base : iter) : outcome iter := it_dec c base.
Definition r_dec (c : cfg) (base : iter) : outcome iter := it_inc c base.
Definition r_plus (c : cfg) (base : iter) (k : Z) : outcome iter := it_minus c base k.
Definition r_diff (c : cfg) (a b : iter) : outcome Z := it_diff c b a.
Fixpoint r_walk {R} (fuel : nat) (c : cfg) (E : env R) (it last : iter) : outcome (list R) :=
  match fuel with
  | O => UB
  | Datatypes.S k =>
      b <- it_cmp c INe it last ;;
      if b then r <- r_deref c E it ;; it' <- r_inc c it ;; rs <- r_walk k c E it' last ;; Ok (r :: rs) else Ok []
  end.

(** Assignment through an iterator of an owning array, *it = v, where the environment holds the buffers. *)
Definition it_write {V} (c : cfg) (h : Z -> list V) (it : iter) (v : V) : outcome (Z -> list V) :=
  somewhere c it ;;;
  check_debug c (match it_ptr it with
                 | Some p => Ok ((-1 <? it_pos it) && (it_pos it <? zlen (h p)))
                 | None => UB
                 end) ;;;
  match it_ptr it with
  | Some p => l <- oset (h p) (it_pos it) v ;; Ok (fun q => if q =? p then l else h q)
  | None => UB
  end.

(** The four kinds of object an iterator walks over: elements of an owning array or of any view (position in the
    storage), the rows and the columns of a two-dimensional object. *)
Definition flag_list {V} (l : list V) : flag V := mkflag (Ok (zlen l)) (oget l).
Definition flag_elems (c : cfg) (o : obj) : flag Z := mkflag (o_size o) (o_lin c o).
Definition flag_rows (c : cfg) (o : obj) : flag obj := mkflag (Ok (o_rows o)) (fun i => o_row c o (Plain i)).
Definition flag_cols (c : cfg) (o : obj) : flag obj := mkflag (Ok (o_cols o)) (fun i => o_col c o (Plain i)).

(** Programs that compute an iterator: every way of obtaining one from an object and moving it. *)
Inductive iexp :=
| IBegin | IEnd
| IInc (e : iexp) | IDec (e : iexp)
| IPlus (e : iexp) (k : Z) | IMinus (e : iexp) (k : Z) | IPlusL (k : Z) (e : iexp)
| IAddEq (e : iexp) (k : Z) | ISubEq (e : iexp) (k : Z)
| IPostInc (e : iexp) | IPostDec (e : iexp).
Fixpoint it_eval {R} (c : cfg) (E : env R) (p : Z) (e : iexp) : outcome iter :=
  match e with
  | IBegin => Ok (it_begin p)
  | IEnd => it_end E p
  | IInc e => it <- it_eval c E p e ;; it_inc c it
  | IDec e => it <- it_eval c E p e ;; it_dec c it
  | IPlus e k => it <- it_eval c E p e ;; it_plus c it k
  | IMinus e k => it <- it_eval c E p e ;; it_minus c it k
  | IPlusL k e => it <- it_eval c E p e ;; it_plus_l c k it
  | IAddEq e k => it <- it_eval c E p e ;; it_addeq c it k
  | ISubEq e k => it <- it_eval c E p e ;; it_subeq c it k
  | IPostInc e => it <- it_eval c E p e ;; r <- it_post_inc c it ;; Ok (snd r)
  | IPostDec e => it <- it_eval c E p e ;; r <- it_post_dec c it ;; Ok (snd r)
  end.

(** ** PlaneIterator (lines 655-726) and IndexRange2D (lines 914-943). *)
Record pit := mkpit { pi : Z; pj : Z; prows : Z; pcols : Z }.

(** Lines 660-670: the constructor. *)
Definition pit_make (c : cfg) (i j m n : Z) : outcome pit :=
  check_debug c (Ok (0 <=? i)) ;;; check_debug c (Ok (0 <=? j)) ;;;
  check_debug c (Ok (i <=? m)) ;;; check_debug c (Ok (j <=? n)) ;;; Ok (mkpit i j m n).
(** Lines 672-678: assignment; the dimensions are constant members. *)
Definition pit_assign (c : cfg) (a b : pit) : outcome pit :=
  check_debug c (Ok (prows a =? prows b)) ;;; check_debug c (Ok (pcols a =? pcols b)) ;;;
  Ok (mkpit (pi b) (pj b) (prows a) (pcols a)).
(** Lines 680-697: prefix ++; && on StrictBool evaluates both sides. *)
Definition pit_inc (c : cfg) (p : pit) : outcome pit :=
  check_debug c (Ok (pi p <? prows p)) ;;; check_debug c (Ok (pj p <? pcols p)) ;;;
  last <- oand (r <- lsub (prows p) 1 ;; Ok (pi p =? r)) (q <- lsub (pcols p) 1 ;; Ok (pj p =? q)) ;;
  if last then
    i <- ladd (pi p) 1 ;; j <- ladd (pj p) 1 ;; Ok (mkpit i j (prows p) (pcols p))
  else
    j1 <- ladd (pj p) 1 ;; i <- ladd (pi p) (if j1 =? pcols p then 1 else 0) ;;
    j2 <- ladd (pj p) 1 ;; j <- lmod c j2 (pcols p) ;; Ok (mkpit i j (prows p) (pcols p)).
(** Lines 699-703: postfix ++. *)
Definition pit_post_inc (c : cfg) (p : pit) : outcome (pit * pit) := p' <- pit_inc c p ;; Ok (p, p').
(** Lines 705-709 and 711-715: == and !=. *)
Definition pit_eq (c : cfg) (a b : pit) : outcome bool :=
  check_debug c (Ok (prows a =? prows b)) ;;; check_debug c (Ok (pcols a =? pcols b)) ;;;
  Ok ((pi a =? pi b) && (pj a =? pj b)).
Definition pit_ne (c : cfg) (a b : pit) : outcome bool :=
  check_debug c (Ok (prows a =? prows b)) ;;; check_debug c (Ok (pcols a =? pcols b)) ;;;
  e <- pit_eq c a b ;; Ok (negb e).
(** Lines 717-721: *it. *)
Definition pit_deref (c : cfg) (p : pit) : outcome (Z * Z) :=
  check_debug c (Ok (pi p <? prows p)) ;;; check_debug c (Ok (pj p <? pcols p)) ;;; Ok (pi p, pj p).

(** Lines 919-925: IndexRange2D(rows, cols); Expr/special.hpp 264-268: irange2D. *)
Definition range_make (c : cfg) (m n : Z) : outcome (Z * Z) :=
  check_debug c (Ok (-1 <? m)) ;;; check_debug c (Ok (-1 <? n)) ;;; check_debug c (Ok (semi_valid m n)) ;;; Ok (m, n).
(** Lines 933-939: begin and end. *)
Definition range_begin (c : cfg) (r : Z * Z) : outcome pit := pit_make c 0 0 (fst r) (snd r).
Definition range_end (c : cfg) (r : Z * Z) : outcome pit := pit_make c (fst r) (snd r) (fst r) (snd r).

(** for(auto [i, j] : IndexRange2D(m, n)) visit(i, j), with fuel as above. *)
Fixpoint pit_walk (fuel : nat) (c : cfg) (it last : pit) : outcome (list (Z * Z)) :=
  match fuel with
  | O => UB
  | Datatypes.S k =>
      b <- pit_ne c it last ;;
      if b then r <- pit_deref c it ;; it' <- pit_inc c it ;; rs <- pit_walk k c it' last ;; Ok (r :: rs) else Ok []
  end.
Definition range_walk (fuel : nat) (c : cfg) (m n : Z) : outcome (list (Z * Z)) :=
  r <- range_make c m n ;; b <- range_begin c r ;; e <- range_end c r ;; pit_walk fuel c b e.
