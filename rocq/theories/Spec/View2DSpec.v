(** What the views of a one- or two-dimensional object select: lists and matrices of storage positions. *)
From Verif Require Import Base.Outcome Base.ZList Model.Index Model.Slice Model.View2D.
From Verif Require Import Spec.ArraySpec Spec.SliceSpec Spec.MatrixSpec Spec.Matrix2Spec.

Inductive den := D1 (ps : list Z) | D2 (P : list (list Z)).

(** Elements are listed by names p; F p is the storage position of the element named p. *)
Definition o_denotes_by (F : Z -> outcome Z) (c : cfg) (o : obj) (d : den) : Prop :=
  match d with
  | D1 ps => is_two o = false /\ zlen ps <= LONG_MAX /\ o_size o = Ok (zlen ps) /\
             forall i p, znth ps i = Some p -> o_lin c o i = F p
  | D2 P => is_two o = true /\ wfm P /\ zlen P * ncols P <= LONG_MAX /\
            o_rows o = zlen P /\ o_cols o = ncols P /\ o_size o = Ok (zlen P * ncols P) /\
            (forall i j p, mget P i j = Some p -> o_at c o i j = F p) /\
            (forall k p, znth (concat P) k = Some p -> o_lin c o k = F p)
  end.

(** The object's elements live at these storage positions. *)
Definition o_denotes (c : cfg) (o : obj) (d : den) : Prop := o_denotes_by Ok c o d.

(** k consecutive elements from position a. *)
Definition run_of {A} (a k : Z) (l : list A) : list A := firstn (Z.to_nat k) (skipn (Z.to_nat a) l).
(** The values f a that exist, in order. *)
Definition collect {A B} (f : A -> option B) (l : list A) : list B :=
  flat_map (fun a => match f a with Some b => [b] | None => [] end) l.
Definition column {A} (P : list (list A)) (j : Z) : list A := collect (fun r => znth r j) P.
(** Elements (i, i + k). *)
Definition diagonal {A} (P : list (list A)) (k : Z) : list A := collect (fun i => mget P i (i + k)) (all_positions (zlen P)).

Definition select2 {A} (P : list (list A)) (s1 s2 : slice) : list (list A) :=
  norm (map (fun r => pick r (positions (ncols P) s2)) (pick P (positions (zlen P) s1))).

(** What each view selects. *)
Definition den_apply (d : den) (w : vop) : option den :=
  match d, w with
  | D1 ps, VwSlice s => Some (D1 (pick ps (positions (zlen ps) s)))
  | D1 ps, VwView1 => Some d
  | D1 ps, VwView2 m n => Some (D2 (norm (chunks m n ps)))
  | D2 P, VwSlice2 s1 s2 => Some (D2 (select2 P s1 s2))
  | D2 P, VwRows s => Some (D2 (pick P (positions (zlen P) s)))
  | D2 P, VwCols s => Some (D2 (norm (map (fun r => pick r (positions (ncols P) s)) P)))
  | D2 P, VwRow ix => option_map D1 (znth P (denotes (zlen P) ix))
  | D2 P, VwCol jx => Some (D1 (column P (denotes (ncols P) jx)))
  | D2 P, VwDiag0 => Some (D1 (diagonal P 0))
  | D2 P, VwDiag k => Some (D1 (diagonal P k))
  | D2 P, VwBlock ix1 jx1 ix2 jx2 =>
      let i1 := denotes (zlen P) ix1 in let i2 := denotes (zlen P) ix2 in
      let j1 := denotes (ncols P) jx1 in let j2 := denotes (ncols P) jx2 in
      Some (D2 (map (run_of j1 (j2 - j1 + 1)) (run_of i1 (i2 - i1 + 1) P)))
  | D2 P, VwBlockN ix jx nr nc => Some (D2 (norm (map (run_of (denotes (ncols P) jx) nc) (run_of (denotes (zlen P) ix) nr P))))
  | D2 P, VwView1 => Some (D1 (concat P))
  | D2 P, VwView2 m n => Some (D2 (norm (chunks m n (concat P))))
  | _, _ => None
  end.

(** Which arguments are meaningful. *)
Definition vop_ok (d : den) (w : vop) : Prop :=
  match d, w with
  | D1 ps, VwSlice s => acceptable (zlen ps) s
  | D1 ps, VwView2 m n => 0 <= m /\ 0 <= n /\ m * n = zlen ps
  | D2 P, VwSlice2 s1 s2 => acceptable (zlen P) s1 /\ acceptable (ncols P) s2
  | D2 P, VwRows s => acceptable (zlen P) s
  | D2 P, VwCols s => acceptable (ncols P) s
  | D2 P, VwRow ix => 0 <= denotes (zlen P) ix < zlen P
  | D2 P, VwCol jx => 0 <= denotes (ncols P) jx < ncols P
  | D2 P, VwDiag k => - zlen P < k < ncols P
  | D2 P, VwBlock ix1 jx1 ix2 jx2 =>
      0 <= denotes (zlen P) ix1 <= denotes (zlen P) ix2 /\ denotes (zlen P) ix2 < zlen P /\
      0 <= denotes (ncols P) jx1 <= denotes (ncols P) jx2 /\ denotes (ncols P) jx2 < ncols P
  | D2 P, VwBlockN ix jx nr nc =>
      0 <= denotes (zlen P) ix /\ 0 <= nr /\ (0 < nr -> denotes (zlen P) ix + nr <= zlen P) /\
      0 <= denotes (ncols P) jx /\ 0 <= nc /\ (0 < nc -> denotes (ncols P) jx + nc <= ncols P)
  | D2 P, VwView2 m n => 0 <= m /\ 0 <= n /\ m * n = zlen P * ncols P
  | _, _ => True
  end.
(** The call compiles: one-dimensional views on one-dimensional objects and so on. *)
Definition vop_typed (d : den) (w : vop) : bool :=
  match d, w with
  | D1 _, (VwSlice _ | VwView1 | VwView2 _ _) => true
  | D1 _, _ => false
  | D2 _, VwSlice _ => false
  | D2 _, _ => true
  end.

(** Arguments are 64-bit and the arithmetic on them does not overflow. *)
Definition vop_fits (d : den) (w : vop) : Prop :=
  match d, w with
  | D1 ps, VwSlice s => args_long s /\ no_overflow (zlen ps) s /\ zlen (positions (zlen ps) s) <= LONG_MAX
  | D1 ps, VwView2 m n => is_long m /\ is_long n /\ is_long (m * n)
  | D2 P, VwSlice2 s1 s2 => args_long s1 /\ no_overflow (zlen P) s1 /\ args_long s2 /\ no_overflow (ncols P) s2 /\
      zlen (positions (zlen P) s1) * zlen (positions (ncols P) s2) <= LONG_MAX
  | D2 P, VwRows s => args_long s /\ no_overflow (zlen P) s /\ zlen (positions (zlen P) s) * ncols P <= LONG_MAX
  | D2 P, VwCols s => args_long s /\ no_overflow (ncols P) s /\ zlen P * zlen (positions (ncols P) s) <= LONG_MAX
  | D2 P, VwRow ix => idx_fits (zlen P) ix
  | D2 P, VwCol jx => idx_fits (ncols P) jx
  | D2 P, VwDiag0 => ncols P < LONG_MAX
  | D2 P, VwDiag k => is_long k /\ k <> LONG_MIN /\ ncols P < LONG_MAX
  | D2 P, VwBlock ix1 jx1 ix2 jx2 => idx_fits (zlen P) ix1 /\ idx_fits (zlen P) ix2 /\ idx_fits (ncols P) jx1 /\ idx_fits (ncols P) jx2
  | D2 P, VwBlockN ix jx nr nc => idx_fits (zlen P) ix /\ idx_fits (ncols P) jx /\ is_long nr /\ is_long nc /\
      denotes (zlen P) ix + nr <= LONG_MAX /\ denotes (ncols P) jx + nc <= LONG_MAX
  | D2 P, VwView2 m n => is_long m /\ is_long n /\ is_long (m * n)
  | _, _ => True
  end.

(** A chain of views. *)
Fixpoint den_chain (d : den) (ws : list vop) : option den :=
  match ws with
  | [] => Some d
  | w :: ws' => match den_apply d w with Some d' => den_chain d' ws' | None => None end
  end.
Fixpoint chain_ok (d : den) (ws : list vop) : Prop :=
  match ws with
  | [] => True
  | w :: ws' => vop_typed d w = true /\ vop_fits d w /\ vop_ok d w /\
                match den_apply d w with Some d' => chain_ok d' ws' | None => False end
  end.
(** All elements of an owning array in row-major order. *)
Definition whole2 (m n : Z) : den := D2 (chunks m n (all_positions (m * n))).
Definition whole1 (n : Z) : den := D1 (all_positions n).

(** The owning arrays: n elements, or m x n elements and not "some rows but no columns". *)
Definition root (o : obj) (d : den) (N : Z) : Prop :=
  (0 <= N <= LONG_MAX /\ o = O1 N /\ d = whole1 N) \/
  (exists m n, 0 <= m /\ 0 <= n /\ (m = 0 <-> n = 0) /\ m * n = N /\ N <= LONG_MAX /\ o = O2 m n N /\ d = whole2 m n).
(** o was obtained from an owning array of N elements by valid view operations, nested to any depth. *)
Definition is_view (c : cfg) (N : Z) (o : obj) : Prop :=
  exists r d ws, root r d N /\ chain_ok d ws /\ o_chain c r ws = Ok o.
(** A one-dimensional view of k elements of the storage: those of o at the coordinates f 0, f 1, ... *)
Definition line_of (c : cfg) (N : Z) (o v : obj) (k : Z) (f : Z -> Z * Z) : Prop :=
  is_view c N v /\ is_two v = false /\ o_size v = Ok k /\
  forall t, 0 <= t < k -> exists p, 0 <= p < N /\ o_at c o (fst (f t)) (snd (f t)) = Ok p /\ o_lin c v t = Ok p.
(** An m x n view: element (i, j) is the element of o at f i, g j. *)
Definition rect_of (c : cfg) (N : Z) (o v : obj) (m n : Z) (f g : Z -> Z) : Prop :=
  is_view c N v /\ is_two v = true /\ o_rows v = m /\ o_cols v = n /\ o_size v = Ok (m * n) /\
  forall i j, 0 <= i < m -> 0 <= j < n -> exists p, 0 <= p < N /\ o_at c o (f i) (g j) = Ok p /\ o_at c v i j = Ok p.
(** Position number t of a list of positions (0 outside, never used). *)
Definition nth_pos (l : list Z) (t : Z) : Z := match znth l t with Some p => p | None => 0 end.
(** Number of rows (columns) of a selection of m rows (columns) when n columns (rows) are selected: empty selections are 0 x 0. *)
Definition clip (m n : Z) : Z := if n =? 0 then 0 else m.
