(** What each slice argument means on an object of n elements, written with filter / map / rev only. *)
From Coq Require Import Sorting.Sorted.
From Verif Require Import Base.Outcome Base.ZList Model.Slice.
From Verif Require Import Spec.ArraySpec.

Definition all_positions (n : Z) : list Z := zseq 0 (Z.to_nat n).

(** The positions addressed, in order. *)
Definition positions (n : Z) (s : slice) : list Z :=
  match s with
  | SeqN start size stride => map (fun i => start + i * stride) (all_positions size)
  | Seq first last stride =>
      if 0 <? stride then filter (fun p => (first <=? p) && (p <=? last) && ((p - first) mod stride =? 0)) (all_positions n)
      else if stride <? 0 then
        rev (filter (fun p => (last <=? p) && (p <=? first) && ((first - p) mod (- stride) =? 0)) (all_positions n))
      else [first]
  | All => all_positions n
  | Even => filter Z.even (all_positions n)
  | Odd => filter Z.odd (all_positions n)
  | Reverse => rev (all_positions n)
  | SkipN k => filter (fun p => p mod k =? 0) (all_positions n)
  | FirstN m => filter (fun p => p <? m) (all_positions n)
  | LastN m => filter (fun p => n - m <=? p) (all_positions n)
  | Vec v => v
  | Compl v => filter (fun p => negb (existsb (Z.eqb p) v)) (all_positions n)
  end.

(** Which arguments are meaningful for an object of n elements. *)
Definition acceptable (n : Z) (s : slice) : Prop :=
  match s with
  | SeqN start size stride =>
      0 <= start /\ 0 <= size /\ forall i, 0 <= i < size -> 0 <= start + i * stride < n
  | Seq first last stride =>
      0 <= first < n /\ 0 <= last < n /\
      (stride > 0 /\ first <= last \/ stride < 0 /\ last <= first \/ stride = 0 /\ first = last)
  | All | Even | Odd | Reverse => True
  | SkipN k => 0 < k
  | FirstN m | LastN m => 0 <= m <= n
  | Vec v => Forall (fun p => 0 <= p < n) v
  | Compl v => StronglySorted Z.lt v /\ Forall (fun p => 0 <= p < n) v
  end.

(** Arguments whose validation stays inside 64-bit arithmetic. *)
Definition no_overflow (n : Z) (s : slice) : Prop :=
  match s with
  | SeqN start size stride =>
      0 <= start -> 0 < size ->
      LONG_MIN <= stride * (size - 1) <= LONG_MAX /\ LONG_MIN <= start + stride * (size - 1) <= LONG_MAX
  | Even => n < LONG_MAX
  | SkipN k => n + k <= LONG_MAX
  | _ => True
  end.

(** Selecting the elements at the given positions of a list. *)
Definition pick {V} (l : list V) (ps : list Z) : list V :=
  flat_map (fun p => match znth l p with Some v => [v] | None => [] end) ps.

(** Writing values at positions, one after another. *)
Definition scatter {V} (l : list V) (pvs : list (Z * V)) : list V :=
  fold_left (fun l pv => zupd l (fst pv) (snd pv)) pvs l.

(** Integer arguments are values of the 64-bit index type. *)
Definition args_long (s : slice) : Prop :=
  match s with
  | SeqN a b d | Seq a b d => is_long a /\ is_long b /\ is_long d
  | SkipN a | FirstN a | LastN a => is_long a
  | _ => True
  end.

(** A resolved slice addresses exactly the positions ps. *)
Definition addresses (r : rslice) (ps : list Z) : Prop :=
  rsize r = zlen ps /\ forall i, 0 <= i < zlen ps -> rmap r i = oget ps i.

(** The view addresses the base positions ps. *)
Definition view_addresses (v : view) (ps : list Z) : Prop :=
  view_size v = zlen ps /\ forall i, 0 <= i < zlen ps -> view_map v i = oget ps i.

(** Specification of A(s1)(s2)...: positions composed, failing when some argument is not acceptable. *)
Fixpoint compose (ps : list Z) (ss : list slice) : list Z :=
  match ss with [] => ps | s :: ss' => compose (pick ps (positions (zlen ps) s)) ss' end.
Fixpoint all_acceptable (ps : list Z) (ss : list slice) : Prop :=
  match ss with
  | [] => True
  | s :: ss' => args_long s /\ acceptable (zlen ps) s /\ no_overflow (zlen ps) s /\
                zlen (positions (zlen ps) s) <= LONG_MAX /\ all_acceptable (pick ps (positions (zlen ps) s)) ss'
  end.

(** No element is read after it has been overwritten. *)
Definition reads_before_writes (pd ps : list Z) : Prop :=
  forall i j p, 0 <= i < j -> znth pd i = Some p -> znth ps j = Some p -> False.

(** General (sequential) semantics: no condition on overlap. *)
Definition copy_through {V} (pd ps : list Z) (b : list V) : list V :=
  fold_left (fun b pq => match znth b (snd pq) with Some x => zupd b (fst pq) x | None => b end) (combine pd ps) b.
