(** What stored views mean: a view is the list (matrix) of places it was created with, looked up in the array as it is now. *)
From Verif Require Import Base.Outcome Base.ZList Model.IntModel Model.Index Model.Slice Model.Array1D Model.Array2D Model.View2D Model.Store1D Model.Store2D Model.Stale.
From Verif Require Import Spec.ArraySpec Spec.SliceSpec Spec.MatrixSpec Spec.Matrix2Spec Spec.Store1DSpec Spec.Store2DSpec Spec.View2DSpec.

(** row, col, diag, view1D and view2D of an array address its elements by their number in row-major order; blocks, row and
    column selections address them by row and column. *)
Definition by_number (w : vop) : bool :=
  match w with VwSlice _ | VwRow _ | VwCol _ | VwDiag0 | VwDiag _ | VwView1 | VwView2 _ _ => true | _ => false end.

(** A stored view: the array it was taken from, whether places are numbers, the number of columns the array had, and the
    numbers the elements had then. *)
Record sview := mksview { v_on : Z; v_num : bool; v_cols : Z; v_den : den }.
(** The place the element numbered p then has in an array of n columns now. *)
Definition place_now (v : sview) (n p : Z) : Z := if v_num v then p else p / v_cols v * n + p mod v_cols v.

Section World.
(** Arrays are values of type L: [flat] lists the elements in order, [width] is the number of columns (0 for one-dimensional
    arrays), [all] names all elements. *)
Context {L O V : Type} (sstep : cfg -> list L -> O -> res (list L) V) (flat : L -> list V) (width : L -> Z) (all : L -> den)
        (assign : L -> Z -> V -> L) (fits : cfg -> list L -> O -> Prop).
Notation world := (list L * list sview)%type.

Definition swith (s : world) (h : Z) (k : sview -> L -> res world V) : res world V :=
  match znth (snd s) h with
  | None => Next s Done
  | Some v => match znth (fst s) (v_on v) with None => Next s Done | Some l => k v l end
  end.
Definition spec_get (c : cfg) (s : world) (v : sview) (l : L) (inside : bool) (p : option Z) : res world V :=
  if inside then
    match p with
    | Some p => match znth (flat l) (place_now v (width l) p) with Some x => Next s (Value x) | None => Crash end
    | None => Crash
    end
  else Next s (Failed (report c)).
Definition spec_put (c : cfg) (s : world) (v : sview) (l : L) (inside : bool) (p : option Z) (x : V) : res world V :=
  if inside then
    match p with
    | Some p => let q := place_now v (width l) p in
        if in_range (zlen (flat l)) q then Next (zupd (fst s) (v_on v) (assign l q x), snd s) Done else Crash
    | None => Crash
    end
  else Next s (Failed (report c)).
Definition places (d : den) : list Z := match d with D1 ps => ps | D2 P => concat P end.
Definition table (d : den) : list (list Z) := match d with D1 _ => [] | D2 P => P end.

Definition spec_vstep (c : cfg) (s : world) (t : stm O V) : res world V :=
  match t with
  | Own o => match sstep c (fst s) o with Next w ob => Next (w, snd s) ob | Crash => Crash end
  | Take k ws => match znth (fst s) k, ws with
      | Some l, w :: _ => match den_chain (all l) ws with
                         | Some d => Next (fst s, snd s ++ [mksview k (by_number w) (width l) d]) Done
                         | None => Next s Done
                         end
      | _, _ => Next s Done
      end
  | Sub h ws => swith s h (fun v l => match den_chain (v_den v) ws with
                                     | Some d => Next (fst s, snd s ++ [mksview (v_on v) (v_num v) (v_cols v) d]) Done
                                     | None => Next s Done
                                     end)
  | Get h ix => swith s h (fun v l => let ps := places (v_den v) in let i := denotes (zlen ps) ix in
      spec_get c s v l (in_range (zlen ps) i) (znth ps i))
  | Put h ix x => swith s h (fun v l => let ps := places (v_den v) in let i := denotes (zlen ps) ix in
      spec_put c s v l (in_range (zlen ps) i) (znth ps i) x)
  | Get2 h ix jx => swith s h (fun v l => let P := table (v_den v) in let i := denotes (zlen P) ix in let j := denotes (ncols P) jx in
      spec_get c s v l (in_range (zlen P) i && in_range (ncols P) j) (mget P i j))
  | Put2 h ix jx x => swith s h (fun v l => let P := table (v_den v) in let i := denotes (zlen P) ix in let j := denotes (ncols P) jx in
      spec_put c s v l (in_range (zlen P) i && in_range (ncols P) j) (mget P i j) x)
  | Length h => swith s h (fun v l => Next s (Number (zlen (places (v_den v)))))
  | Rows h => swith s h (fun v l => Next s (Number (zlen (table (v_den v)))))
  | Cols h => swith s h (fun v l => Next s (Number (ncols (table (v_den v)))))
  | Deref k pos => match znth (fst s) k with
      | None => Next s Done
      | Some l => match znth (flat l) pos with Some x => Next s (Value x) | None => Next s (Failed (report c)) end
      end
  end.

(** Is a two-dimensional view. *)
Definition two (d : den) : bool := match d with D1 _ => false | D2 _ => true end.
(** What the program must respect: arguments are 64-bit and their arithmetic does not overflow, views are created with valid
    arguments, one index for one-dimensional views and two for two-dimensional ones (else it does not compile). In builds
    without checks also: indices are inside the view.  Nothing is required of the arrays when a view is used. *)
Definition respects (c : cfg) (s : world) (t : stm O V) : Prop :=
  let on h (P : sview -> L -> Prop) := forall v l, znth (snd s) h = Some v -> znth (fst s) (v_on v) = Some l -> P v l in
  match t with
  | Own o => fits c (fst s) o
  | Take k ws => ws <> [] /\ forall l, znth (fst s) k = Some l -> chain_ok (all l) ws
  | Sub h ws => on h (fun v l => chain_ok (v_den v) ws)
  | Get h ix | Put h ix _ => on h (fun v l => two (v_den v) = false /\ idx_fits (zlen (places (v_den v))) ix /\
      (checked c = true \/ in_range (zlen (places (v_den v))) (denotes (zlen (places (v_den v))) ix) = true))
  | Get2 h ix jx | Put2 h ix jx _ => on h (fun v l => two (v_den v) = true /\ idx_fits (zlen (table (v_den v))) ix /\ idx_fits (ncols (table (v_den v))) jx /\
      (checked c = true \/ in_range (zlen (table (v_den v))) (denotes (zlen (table (v_den v))) ix) &&
                          in_range (ncols (table (v_den v))) (denotes (ncols (table (v_den v))) jx) = true))
  | Length h => True
  | Rows h | Cols h => on h (fun v l => two (v_den v) = true)
  | Deref k pos => forall l, znth (fst s) k = Some l -> checked c = true \/ in_range (zlen (flat l)) pos = true
  end.
Fixpoint program_ok (c : cfg) (s : world) (ts : list (stm O V)) : Prop :=
  match ts with
  | [] => True
  | t :: ts' => respects c s t /\
      match spec_vstep c s t with
      | Next s' (Failed f) => if fatal f then True else program_ok c s' ts'
      | Next s' _ => program_ok c s' ts'
      | Crash => True
      end
  end.
End World.

(** The operation on the arrays has 64-bit arguments; without checks it is also valid (it may run out of memory). *)
Definition sound {S V} (c : cfg) (r : res S V) : Prop :=
  checked c = true \/ match r with Next _ (Failed f) => f = BadAlloc | Next _ _ => True | Crash => False end.

(** One-dimensional arrays are lists, two-dimensional ones are matrices. *)
Section Kinds.
Context {V : Type} (zero : V).
Definition spec_vstep1 : cfg -> list (list V) * list sview -> stm (op1 V) V -> res (list (list V) * list sview) V :=
  spec_vstep (spec_step1 zero) (fun l => l) (fun _ => 0) (fun l => whole1 (zlen l)) (@zupd V).
Definition program1 : cfg -> list (list V) * list sview -> list (stm (op1 V) V) -> Prop :=
  program_ok (spec_step1 zero) (fun l => l) (fun _ => 0) (fun l => whole1 (zlen l)) (@zupd V)
             (fun c w o => op_long o /\ sound c (spec_step1 zero c w o)).
Definition mput (M : list (list V)) (q : Z) (x : V) : list (list V) := mset M (q / ncols M) (q mod ncols M) x.
Definition spec_vstep2 : cfg -> list (list (list V)) * list sview -> stm (op2 V) V -> res (list (list (list V)) * list sview) V :=
  spec_vstep (spec_step2 zero) (@concat V) ncols (fun M => whole2 (zlen M) (ncols M)) mput.
Definition program2 : cfg -> list (list (list V)) * list sview -> list (stm (op2 V) V) -> Prop :=
  program_ok (spec_step2 zero) (@concat V) ncols (fun M => whole2 (zlen M) (ncols M)) mput
             (fun c w o => op2_long o /\ odd_move c w o = false /\ sound c (spec_step2 zero c w o)).
End Kinds.
