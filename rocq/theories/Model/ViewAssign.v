(** Assignment and compound assignment through arrays and slices: derived_base.hpp, slicearray_base1D.hpp,
    slicearray_base2D.hpp, derived1D.hpp, derived2D.hpp, ArrayCommon/algorithm.hpp.
    The target is an object of Model.View2D (an owning array or a view of one, nested to any depth) over the storage b of
    the owning array.  A source is given by its size and by [rd b i], its element i; reading may depend on the storage
    because the source may be a view of, or an expression over, the same array.
    Simplification: algorithm.hpp declares the operands of copy as __restrict; with overlapping operands the model gives
    the sequential meaning of the loop. *)
From Verif Require Import Base.Outcome Base.ZList Model.Index Model.Slice Model.Array1D Model.Array2D Model.View2D.

Section ASSIGN.
Context {V : Type}.
Implicit Types (b : list V) (o : obj) (c : cfg).

(** An update loop for i in [0, n): un(i) = g(i, un(i)) (algorithm.hpp 17-31: apply0, apply1). *)
Definition update_loop c o (n : Z) (g : list V -> Z -> V -> outcome V) b : mut (list V) :=
  mfor 0 n (fun i b => commit b (p <- o_lin c o i ;; v <- oget b p ;; y <- g b i v ;; oset b p y)) b.
(** A store loop for i in [0, n): un(i) = rd(i) (algorithm.hpp 61-66, 149-154). *)
Definition store_loop c o (n : Z) (rd : list V -> Z -> outcome V) b : mut (list V) :=
  mfor 0 n (fun i b => commit b (y <- rd b i ;; p <- o_lin c o i ;; oset b p y)) b.
(** The same over two indices (algorithm.hpp 77-84). *)
Definition store_loop2 c o (m n : Z) (rd : list V -> Z -> Z -> outcome V) b : mut (list V) :=
  mfor 0 m (fun i b => mfor 0 n (fun j b => commit b (y <- rd b i j ;; p <- o_at c o i j ;; oset b p y)) b) b.
(** Run the check, then the loop; a failed check leaves the storage as it is. *)
Definition guarded (chk : outcome unit) (m : mut (list V)) b : mut (list V) :=
  match chk with Ok _ => m | Fail f => MFail f b | UB => MUB end.

(** derived_base.hpp 58-126: A op= x for every operator; x is passed by value. *)
Definition v_op_scalar c (f : V -> V -> outcome V) o (x : V) b : mut (list V) :=
  match o_size o with Ok n => update_loop c o n (fun _ _ v => f v x) b | Fail e => MFail e b | UB => MUB end.
(** derived_base.hpp 129-207: A op= B; B has size k (one dimension). *)
Definition v_op_array c (f : V -> V -> outcome V) o (k : Z) (rd : list V -> Z -> outcome V) b : mut (list V) :=
  match o_size o with
  | Ok n => guarded (check_debug c (Ok (n =? k))) (update_loop c o n (fun b i v => x <- rd b i ;; f v x) b) b
  | Fail e => MFail e b | UB => MUB
  end.
(** The same in two dimensions; B has shape m x k. *)
Definition v_op_array2 c (f : V -> V -> outcome V) o (m k : Z) (rd : list V -> Z -> outcome V) b : mut (list V) :=
  match o_size o with
  | Ok n => guarded (check_debug c (Ok (same_size2 (o_rows o) (o_cols o) m k))) (update_loop c o n (fun b i v => x <- rd b i ;; f v x) b) b
  | Fail e => MFail e b | UB => MUB
  end.

(** slicearray_base1D.hpp 62-66, slicearray_base2D.hpp 67-72: A = x. *)
Definition v_fill c o (x : V) b : mut (list V) :=
  match o_size o with Ok n => store_loop c o n (fun _ _ => Ok x) b | Fail e => MFail e b | UB => MUB end.
(** slicearray_base1D.hpp 78-93: A = B for a slice or any other one-dimensional source of size k. *)
Definition v_assign c o (k : Z) (rd : list V -> Z -> outcome V) b : mut (list V) :=
  match o_size o with
  | Ok n => guarded (check_debug c (Ok (n =? k))) (store_loop c o k rd b) b
  | Fail e => MFail e b | UB => MUB
  end.
(** slicearray_base1D.hpp 69-75: A = {x, y, ...}. *)
Definition v_assign_list c o (l : list V) b : mut (list V) := v_assign c o (zlen l) (fun _ => oget l) b.
(** slicearray_base2D.hpp 88-104: A = B in two dimensions, B of shape m x k; copy is the two-index loop because the target
    is a slice. *)
Definition v_assign2 c o (m k : Z) (rd : list V -> Z -> Z -> outcome V) b : mut (list V) :=
  guarded (check_debug c (Ok (same_size2 (o_rows o) (o_cols o) m k))) (store_loop2 c o m k rd b) b.
(** slicearray_base2D.hpp 76-85: A = {{x, y}, {z, t}, ...}; algorithm.hpp 48-58 walks the rows and their elements (its counters are
    int, which no initializer list exceeds). *)
Definition v_assign_list2 c o (L : list (list V)) b : mut (list V) :=
  guarded (check_debug c (Ok (valid_list2 L)))
    (let (m, n) := list2_sizes L in
     guarded (check_debug c (Ok (o_rows o =? m)))
       (guarded (check_debug c (Ok (o_cols o =? n)))
          (mfor 0 (zlen L) (fun i b => match znth L i with
             | Some l => mfor 0 (zlen l) (fun j b => commit b (x <- oget l j ;; p <- o_at c o i j ;; oset b p x)) b
             | None => MUB end) b) b) b) b.

(** An exception leaving a noexcept function. *)
Definition mnoexcept (m : mut (list V)) : mut (list V) :=
  match m with MFail Throw b | MFail BadAlloc b => MFail Terminate b | r => r end.
(** derived1D.hpp 299-301: StrictArrayMutable1D::operator=(StrictArrayMutable1D&&) noexcept, chosen for A(s) = B(t) when
    both temporaries have the same slice type; Base::operator=(Base&&) is SliceArrayBase1D::operator=(const&). *)
Definition v_assign_rvalue c o (k : Z) (rd : list V -> Z -> outcome V) b : mut (list V) := mnoexcept (v_assign c o k rd b).
(** derived2D.hpp 671-673. *)
Definition v_assign2_rvalue c o (m k : Z) (rd : list V -> Z -> Z -> outcome V) b : mut (list V) := mnoexcept (v_assign2 c o m k rd b).
End ASSIGN.
