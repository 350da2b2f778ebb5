(** Matrix-level meaning of the two-dimensional array operations. *)
From Verif Require Import Base.Outcome Base.ZList Model.Index Model.Slice Model.Array1D Model.Array2D Model.Store1D.
From Verif Require Import Spec.ArraySpec Spec.SliceSpec Spec.Store1DSpec Spec.MatrixSpec.

Section S.
Context {V : Type} (zero : V).
Implicit Types (M N : list (list V)) (l : list V) (c : cfg).

(** A matrix with no columns has no rows. *)
Definition norm M : list (list V) := if ncols M =? 0 then [] else M.
Definition zipw {A B} (f : list V -> A -> B) (M : list (list V)) (N : list A) : list B :=
  map (fun p => f (fst p) (snd p)) (combine M N).
Definition fit {A} (d : A) (n : Z) (l : list A) : list A := firstn (Z.to_nat n) l ++ repeat d (Z.to_nat n - length l).
Definition const_mat (m n : Z) (x : V) : list (list V) := repeat (repeat x (Z.to_nat n)) (Z.to_nat m).
(** The elements of l in rows of n. *)
Definition chunks (m n : Z) l : list (list V) :=
  map (fun i => firstn (Z.to_nat n) (skipn (Z.to_nat (i * n)) l)) (zseq 0 (Z.to_nat m)).

(** Storage for m x n elements: the product must be a long. *)
Definition room2 c (m n : Z) {A} (x : outcome A) : outcome A := if in_long (m * n) then room c (m * n) x else UB.
Definition shape_ok (m n : Z) : bool := (0 <=? m) && (0 <=? n) && Bool.eqb (m =? 0) (n =? 0).

(** Array2D(m, n): the storage is requested before the shape is checked. *)
Definition spec_new2 c (m n : Z) (x : V) : outcome (list (list V)) :=
  if negb (in_long (m * n)) then UB
  else guard c (0 <=? m * n) (room c (m * n) (guard c (shape_ok m n) (Ok (const_mat m n x)))).
Definition good_list (L : list (list V)) : bool :=
  match L with [] | [[]] => true | r :: _ => (0 <? zlen r) && forallb (fun q => zlen q =? zlen r) L end.
Definition spec_list2 c (L : list (list V)) : outcome (list (list V)) :=
  match L with
  | [] | [[]] => Ok []
  | r :: _ => room2 c (zlen L) (zlen r) (guard c (good_list L) (Ok L))
  end.
Definition spec_resize2 c M (m n : Z) (pr : bool) : outcome (list (list V)) :=
  guard c (shape_ok m n)
    (if (m =? zlen M) && (n =? ncols M) then Ok M
     else if pr then room2 c m n (Ok (fit (repeat zero (Z.to_nat n)) m (map (fit zero n) M)))
     else if m * n =? zlen M * ncols M then Ok (chunks m n (concat M))
     else room2 c m n (Ok (const_mat m n zero))).

Definition spec_remove_rows c M (p k : Z) : outcome (list (list V)) :=
  if (0 <? k) && in_range (zlen M) p && (LONG_MAX <? p + k) then UB
  else guard c ((0 <? k) && (0 <=? p) && (p + k <=? zlen M)) (Ok (del M p k)).
Definition spec_remove_cols c M (p k : Z) : outcome (list (list V)) :=
  if (0 <? k) && in_range (ncols M) p && (LONG_MAX <? p + k) then UB
  else guard c ((0 <? k) && (0 <=? p) && (p + k <=? ncols M)) (Ok (norm (map (fun r => del r p k) M))).
Definition spec_remove_rows_idx c M (v : list Z) : outcome (list (list V)) :=
  guard c (increasing v && forallb (in_range (zlen M)) v) (Ok (keep M v)).
Definition spec_remove_cols_idx c M (v : list Z) : outcome (list (list V)) :=
  guard c (increasing v && forallb (in_range (ncols M)) v) (Ok (norm (map (fun r => keep r v) M))).

Definition spec_insert_rows c M (p : Z) N : outcome (list (list V)) :=
  guard c ((0 <=? p) && (p <=? zlen M))
    (if zlen M =? 0 then room2 c (zlen N) (ncols N) (Ok N)
     else guard c (ncols N =? ncols M) (room2 c (zlen M + zlen N) (ncols M) (Ok (ins M p N)))).
Definition spec_insert_cols c M (p : Z) N : outcome (list (list V)) :=
  guard c ((0 <=? p) && (p <=? ncols M))
    (if zlen M =? 0 then room2 c (zlen N) (ncols N) (Ok N)
     else guard c (zlen N =? zlen M) (room2 c (zlen M) (ncols M + ncols N) (Ok (zipw (fun r s => ins r p s) M N)))).
Definition spec_insert_row c M (p : Z) l : outcome (list (list V)) :=
  guard c ((0 <=? p) && (p <=? zlen M))
    (if zlen M =? 0 then guard c (0 <? zlen l) (room2 c 1 (zlen l) (Ok [l]))
     else guard c (zlen l =? ncols M) (room2 c (zlen M + 1) (ncols M) (Ok (ins M p [l])))).
Definition spec_insert_col c M (p : Z) l : outcome (list (list V)) :=
  guard c ((0 <=? p) && (p <=? ncols M))
    (if zlen M =? 0 then guard c (0 <? zlen l) (room2 c (zlen l) 1 (Ok (map (fun x => [x]) l)))
     else guard c (zlen l =? zlen M) (room2 c (zlen M) (ncols M + 1) (Ok (zipw (fun r x => ins r p [x]) M l)))).

Definition last_fits (n : Z) (ix : idx) : bool := match ix with Plain _ => true | FromLast d => n - d <=? LONG_MAX end.
Definition spec_at2 c M (ix jx : idx) {A} (k : Z -> Z -> outcome A) : outcome A :=
  if negb (last_fits (zlen M) ix && last_fits (ncols M) jx) then UB
  else guard c (in_range (zlen M) (denotes (zlen M) ix) && in_range (ncols M) (denotes (ncols M) jx))
         (k (denotes (zlen M) ix) (denotes (ncols M) jx)).
Definition mset M (i j : Z) (x : V) : list (list V) := match znth M i with Some r => zupd M i (zupd r j x) | None => M end.
End S.
