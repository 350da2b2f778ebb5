(** Properties C17-C23: index arguments, slices and slice arrays. *)
From Coq Require Import Sorting.Sorted.
From Verif Require Import Base.Outcome Base.ZList Model.Index Model.Array1D Model.Slice.
From Verif Require Import Spec.ArraySpec Spec.SliceSpec Spec.Configs Proofs.SliceProofs Proofs.ViewProofs Proofs.SliceThms.

(** ** C17 *)
(** seqN: accepted (in every configuration) when all addressed indexes are in range; it then addresses exactly them. *)
Theorem C17_seqn_valid : forall c v start size stride,
  0 <= view_size v <= LONG_MAX -> is_long start -> is_long size -> is_long stride ->
  0 <= start -> 0 <= size -> (forall i, 0 <= i < size -> 0 <= start + i * stride < view_size v) ->
  exists r, view_slice c v (SeqN start size stride) = Ok (VSlice v r) /\ rsize r = size /\
    forall i, 0 <= i < size -> rmap r i = Ok (start + i * stride).
Proof. exact seqn_valid_thm. Qed.
Print Assumptions C17_seqn_valid.

(** Anything else is reported, unless evaluating the check itself overflows. *)
Theorem C17_seqn_invalid : forall c v start size stride,
  0 <= view_size v <= LONG_MAX -> is_long start -> is_long size -> is_long stride -> checked c = true ->
  ~ (0 <= start /\ 0 <= size /\ forall i, 0 <= i < size -> 0 <= start + i * stride < view_size v) ->
  (0 <= start -> 0 < size -> is_long (stride * (size - 1)) /\ is_long (start + stride * (size - 1))) ->
  view_slice c v (SeqN start size stride) = Fail (report c).
Proof. exact seqn_invalid_thm. Qed.
Print Assumptions C17_seqn_invalid.

(** ... in which case the check is undefined behaviour. *)
Theorem C17_seqn_overflow : forall c v start size stride,
  0 <= view_size v <= LONG_MAX -> is_long start -> is_long size -> is_long stride -> checked c = true ->
  0 <= start -> 0 < size -> ~ (is_long (stride * (size - 1)) /\ is_long (start + stride * (size - 1))) ->
  view_slice c v (SeqN start size stride) = UB.
Proof. exact seqn_overflow_thm. Qed.
Print Assumptions C17_seqn_overflow.

Example C17_case :
  view_slice c_dbg (VBase 10) (SeqN 9 4 (-3)) = Ok (VSlice (VBase 10) (RSeq (mkseqn 9 4 (-3)))) /\
  view_slice c_dbg (VBase 10) (SeqN 8 4 (-3)) = Fail Throw /\
  view_slice c_dbg (VBase 10) (SeqN 3 7 0) = Ok (VSlice (VBase 10) (RSeq (mkseqn 3 7 0))) /\
  view_slice c_dbg (VBase 0) (SeqN 50 0 1) = Ok (VSlice (VBase 0) (RSeq (mkseqn 50 0 1))) /\
  view_slice c_dbg (VBase 10) (SeqN 1 5 4611686018427387904) = UB.
Proof. vm_compute. repeat split. Qed.

(** ** C18 *)
(** seq: addresses exactly the indexes first, first+stride, ... that lie between first and last, in that order. *)
Theorem C18_seq_valid : forall c v first last stride,
  0 <= view_size v <= LONG_MAX -> is_long stride ->
  0 <= first < view_size v -> 0 <= last < view_size v ->
  (stride > 0 /\ first <= last \/ stride < 0 /\ last <= first \/ stride = 0 /\ first = last) ->
  exists r, view_slice c v (Seq first last stride) = Ok (VSlice v r) /\ 1 <= rsize r /\
    (forall i, 0 <= i < rsize r -> rmap r i = Ok (first + i * stride) /\
       0 <= first + i * stride < view_size v /\ Z.min first last <= first + i * stride <= Z.max first last) /\
    (forall p k, 0 <= k -> p = first + k * stride -> Z.min first last <= p <= Z.max first last ->
       stride = 0 \/ k < rsize r).
Proof. exact seq_valid_thm. Qed.
Print Assumptions C18_seq_valid.

Theorem C18_seq_invalid : forall c v first last stride,
  0 <= view_size v <= LONG_MAX -> is_long first -> is_long last -> is_long stride -> checked c = true ->
  ~ (0 <= first < view_size v /\ 0 <= last < view_size v /\
     (stride > 0 /\ first <= last \/ stride < 0 /\ last <= first \/ stride = 0 /\ first = last)) ->
  view_slice c v (Seq first last stride) = Fail (report c).
Proof. exact seq_invalid_thm. Qed.
Print Assumptions C18_seq_invalid.

Example C18_case :
  view_slice c_off (VBase 10) (Seq 9 2 (-3)) = Ok (VSlice (VBase 10) (RSeq (mkseqn 9 3 (-3)))) /\
  view_slice c_dbg (VBase 10) (Seq 2 9 (-3)) = Fail Throw /\
  view_slice c_dbg (VBase 10) (Seq 2 10 1) = Fail Throw /\
  view_slice c_dbg (VBase LONG_MAX) (Seq 0 (LONG_MAX - 1) 1) = Ok (VSlice (VBase LONG_MAX) (RSeq (mkseqn 0 LONG_MAX 1))).
Proof. vm_compute. repeat split. Qed.

(** ** C19 *)
(** Every placeholder addresses exactly the positions of its list-level meaning (Spec/SliceSpec.v), in order. *)
Theorem C19_placeholders : forall c v s,
  0 <= view_size v <= LONG_MAX -> args_long s -> acceptable (view_size v) s -> no_overflow (view_size v) s ->
  exists r, view_slice c v s = Ok (VSlice v r) /\ addresses r (positions (view_size v) s) /\
    Forall (fun p => 0 <= p < view_size v) (positions (view_size v) s).
Proof. exact placeholders_thm. Qed.
Print Assumptions C19_placeholders.

Theorem C19_rejected : forall c v s,
  0 <= view_size v <= LONG_MAX -> args_long s -> checked c = true ->
  ~ acceptable (view_size v) s -> no_overflow (view_size v) s -> view_slice c v s = Fail (report c).
Proof. exact view_slice_bad. Qed.
Print Assumptions C19_rejected.

(** skipN(k) with size + k beyond the index type is undefined behaviour in every configuration. *)
Theorem C19_skip_overflow : forall c v k,
  0 <= view_size v <= LONG_MAX -> is_long k -> 0 < k -> LONG_MAX < view_size v + k ->
  view_slice c v (SkipN k) = UB.
Proof. exact skip_overflow_thm. Qed.
Print Assumptions C19_skip_overflow.

(** even and odd partition; reverse is an involution; firstN and lastN split. *)
Theorem C19_laws : forall (V : Type) (l : list V),
  let n := zlen l in
  pick l (positions n All) = l /\
  pick l (positions n Reverse) = rev l /\
  (forall k, 0 <= k <= n -> pick l (positions n (FirstN k)) = firstn (Z.to_nat k) l /\
                            pick l (positions n (LastN (n - k))) = skipn (Z.to_nat k) l) /\
  (forall p, 0 <= p < n -> In p (positions n Even) \/ In p (positions n Odd)) /\
  (forall p, In p (positions n Even) -> In p (positions n Odd) -> False) /\
  (forall i, 0 <= i -> znth (pick l (positions n Even)) i = znth l (2 * i) /\
                       znth (pick l (positions n Odd)) i = znth l (2 * i + 1)) /\
  (forall k i, 0 < k -> 0 <= i -> znth (pick l (positions n (SkipN k))) i = znth l (k * i)).
Proof. exact placeholder_laws. Qed.
Print Assumptions C19_laws.

Example C19_case :
  positions 7 Even = [0; 2; 4; 6] /\ positions 7 Odd = [1; 3; 5] /\ positions 7 (SkipN 3) = [0; 3; 6] /\
  positions 7 (LastN 2) = [5; 6] /\ positions 0 Reverse = [] /\
  view_slice c_off (VBase 7) Odd = Ok (VSlice (VBase 7) (RSeq (mkseqn 1 3 2))) /\
  view_slice c_dbg (VBase 7) (FirstN 8) = Fail Throw /\
  view_slice c_off (VBase 2) (SkipN LONG_MAX) = UB.
Proof. vm_compute. repeat split. Qed.

(** ** C20 *)
Theorem C20_vector : forall c v w, 0 <= view_size v <= LONG_MAX ->
  (Forall (fun p => 0 <= p < view_size v) w -> view_slice c v (Vec w) = Ok (VSlice v (RVec w))) /\
  (~ Forall (fun p => 0 <= p < view_size v) w -> checked c = true -> view_slice c v (Vec w) = Fail (report c)) /\
  (forall i, rmap (RVec w) i = oget w i) /\ rsize (RVec w) = zlen w.
Proof. exact vector_thm. Qed.
Print Assumptions C20_vector.

Theorem C20_complement : forall c v w, 0 <= view_size v <= LONG_MAX ->
  (StronglySorted Z.lt w -> Forall (fun p => 0 <= p < view_size v) w ->
     exists u, view_slice c v (Compl w) = Ok (VSlice v (RVec u)) /\ StronglySorted Z.lt u /\
       (forall p, In p u <-> 0 <= p < view_size v /\ ~ In p w) /\ zlen u + zlen w = view_size v) /\
  (~ (StronglySorted Z.lt w /\ Forall (fun p => 0 <= p < view_size v) w) -> checked c = true ->
     view_slice c v (Compl w) = Fail (report c)).
Proof. exact complement_thm. Qed.
Print Assumptions C20_complement.

(** implicit_vector_sequence(n, s, d), the usual way to write an index vector, is s, s+d, s+2d, ... in this order. *)
Theorem C20_sequence : forall c n s d, is_long n ->
  (0 <= n -> (forall i, 0 <= i < n -> is_long (i * d) /\ is_long (s + i * d)) ->
     exists v, implicit_vector_sequence c n s d = Ok v /\ zlen v = n /\ forall i, 0 <= i < n -> znth v i = Some (s + i * d)) /\
  (n < 0 -> checked c = true -> implicit_vector_sequence c n s d = Fail (report c)).
Proof. exact sequence_thm. Qed.
Print Assumptions C20_sequence.
Example C20_sequence_case : implicit_vector_sequence c_dbg 3 10 (-4) = Ok [10; 6; 2] /\ implicit_vector_sequence c_dbg (-1) 0 1 = Fail Throw.
Proof. vm_compute. repeat split. Qed.

Example C20_case :
  view_slice c_dbg (VBase 6) (Compl [1; 4]) = Ok (VSlice (VBase 6) (RVec [0; 2; 3; 5])) /\
  view_slice c_dbg (VBase 6) (Compl [1; 1]) = Fail Throw /\
  view_slice c_dbg (VBase 6) (Vec [5; 5; 0]) = Ok (VSlice (VBase 6) (RVec [5; 5; 0])) /\
  view_slice c_abort (VBase 6) (Vec [5; 6]) = Fail Abort.
Proof. vm_compute. repeat split. Qed.

(** ** C21 *)
Theorem C21_last_denotes : forall n k ix, 0 <= n <= LONG_MAX -> is_long k ->
  (last_minus place_last k = Ok ix -> denotes n ix = n - 1 - k) /\
  (k <> LONG_MIN -> last_plus place_last k = Ok ix -> denotes n ix = n - 1 + k).
Proof. exact last_thm. Qed.
Print Assumptions C21_last_denotes.

Theorem C21_indexing : forall (V : Type) c (A : src1 V) l ix,
  produces A l -> zlen l <= LONG_MAX -> idx_fits (zlen l) ix ->
  let p := denotes (zlen l) ix in
  (forall x, znth l p = Some x -> sub1 c A ix = Ok x /\ at1 c A ix = Ok x /\ un1 A ix = Ok x) /\
  (~ 0 <= p < zlen l ->
     (checked c = true -> sub1 c A ix = Fail (report c)) /\
     (exc c || negb (ndbg c) = true -> at1 c A ix = Fail (report c))).
Proof. exact @indexing_thm. Qed.
Print Assumptions C21_indexing.

(** An offset so large that size - k leaves the index type is undefined behaviour, even in at(). *)
Theorem C21_last_overflow : forall (V : Type) c (A : src1 V) l k,
  produces A l -> zlen l <= LONG_MAX -> is_long k -> LONG_MAX < zlen l - k ->
  sub1 c A (FromLast k) = UB /\ at1 c A (FromLast k) = UB.
Proof. exact @sub1_last_ub. Qed.
Print Assumptions C21_last_overflow.

Example C21_case :
  (ix <- last_minus place_last 1 ;; sub1 c_dbg (src_of_list [5; 6; 7]) ix) = Ok 6 /\
  (ix <- last_plus place_last 1 ;; sub1 c_dbg (src_of_list [5; 6; 7]) ix) = Fail Throw /\
  (ix <- last_minus place_last 3 ;; at1 c_off (src_of_list [5; 6; 7]) ix) = Fail Throw /\
  (ix <- last_plus place_last LONG_MAX ;; at1 c_dbg (src_of_list [5; 6; 7]) ix) = UB.
Proof. vm_compute. repeat split. Qed.

(** ** C22 *)
(** Slices of slices to any depth: the size, reads and writes are those of the composed position list. *)
Theorem C22_nested_slices : forall (V : Type) c (b : list V) ss,
  zlen b <= LONG_MAX -> all_acceptable (all_positions (zlen b)) ss ->
  let ps := compose (all_positions (zlen b)) ss in
  exists v, view_slices c (VBase (zlen b)) ss = Ok v /\ view_size v = zlen ps /\
    Forall (fun p => 0 <= p < zlen b) ps /\
    forall i p, znth ps i = Some p ->
      view_un v b i = oget b p /\
      forall x, exists b', view_set v b i x = Ok b' /\ zlen b' = zlen b /\
        forall k, znth b' k = if k =? p then Some x else znth b k.
Proof. exact @nested_slices_thm. Qed.
Print Assumptions C22_nested_slices.

(** Checked access A(s1)(s2)...[ix]. *)
Theorem C22_checked_access : forall (V : Type) c (b : list V) ss v ix,
  zlen b <= LONG_MAX -> all_acceptable (all_positions (zlen b)) ss ->
  view_slices c (VBase (zlen b)) ss = Ok v ->
  let ps := compose (all_positions (zlen b)) ss in
  zlen ps <= LONG_MAX -> idx_fits (zlen ps) ix ->
  (forall p, znth ps (denotes (zlen ps) ix) = Some p ->
     view_sub c v b ix = oget b p /\ forall x, view_write c v b ix x = Ok (zupd b p x)) /\
  (~ 0 <= denotes (zlen ps) ix < zlen ps -> checked c = true ->
     view_sub c v b ix = Fail (report c) /\ forall x, view_write c v b ix x = Fail (report c)).
Proof. exact @nested_access_thm. Qed.
Print Assumptions C22_checked_access.

(** The first unacceptable slice in a chain is reported. *)
Theorem C22_chain_rejected : forall c n ss s ss',
  0 <= n <= LONG_MAX -> checked c = true -> all_acceptable (all_positions n) ss ->
  let m := zlen (compose (all_positions n) ss) in
  m <= LONG_MAX -> args_long s -> ~ acceptable m s -> no_overflow m s ->
  view_slices c (VBase n) (ss ++ s :: ss') = Fail (report c).
Proof. exact chain_rejected_thm. Qed.
Print Assumptions C22_chain_rejected.

(** Filling a slice changes exactly the addressed elements. *)
Theorem C22_fill : forall (V : Type) c (b : list V) ss v x,
  zlen b <= LONG_MAX -> all_acceptable (all_positions (zlen b)) ss ->
  view_slices c (VBase (zlen b)) ss = Ok v ->
  exists b', view_fill v x b = MOk b' /\ zlen b' = zlen b /\
    forall k, 0 <= k < zlen b ->
      (In k (compose (all_positions (zlen b)) ss) -> znth b' k = Some x) /\
      (~ In k (compose (all_positions (zlen b)) ss) -> znth b' k = znth b k).
Proof. exact @view_fill_thm. Qed.
Print Assumptions C22_fill.

Example C22_case :
  compose (all_positions 10) [Even; Reverse; SeqN 1 2 2] = [6; 2] /\
  (v <- view_slices c_dbg (VBase 10) [Even; Reverse; SeqN 1 2 2] ;; view_sub c_dbg v (zseq 100 10) (Plain 1)) = Ok 102 /\
  (v <- view_slices c_dbg (VBase 10) [Even; Reverse; SeqN 1 2 2] ;; view_write c_dbg v (zseq 100 10) place_last 7)
    = Ok [100; 101; 7; 103; 104; 105; 106; 107; 108; 109] /\
  view_slices c_dbg (VBase 10) [Even; FirstN 6; Reverse] = Fail Throw.
Proof. vm_compute. repeat split. Qed.

(** ** C23 *)
(** Slice-to-slice assignment inside one array equals assignment from a snapshot when no element is read after it was
    overwritten. *)
Theorem C23_snapshot : forall (V : Type) c dst src pd ps (b : list V),
  view_addresses dst pd -> view_addresses src ps -> zlen pd = zlen ps ->
  Forall (fun p => 0 <= p < zlen b) pd -> Forall (fun p => 0 <= p < zlen b) ps ->
  reads_before_writes pd ps ->
  view_assign_view c dst src b = MOk (scatter b (combine pd (pick b ps))).
Proof. exact @view_assign_view_ok. Qed.
Print Assumptions C23_snapshot.

(** Left shifts of any stride are in that case. *)
Theorem C23_left_shift : forall a a' m d, 0 < d -> a <= a' ->
  reads_before_writes (map (fun i => a + i * d) (all_positions m)) (map (fun i => a' + i * d) (all_positions m)).
Proof. exact left_shift_safe. Qed.
Print Assumptions C23_left_shift.

(** In general the elements are copied front to back, each read seeing the earlier writes. *)
Theorem C23_sequential : forall (V : Type) c dst src pd ps (b : list V),
  view_addresses dst pd -> view_addresses src ps -> zlen pd = zlen ps ->
  Forall (fun p => 0 <= p < zlen b) pd -> Forall (fun p => 0 <= p < zlen b) ps ->
  view_assign_view c dst src b = MOk (copy_through pd ps b).
Proof. exact @view_assign_view_seq. Qed.
Print Assumptions C23_sequential.

(** A = A(reverse): the lower half receives the mirrored upper half, the upper half keeps its values. *)
Theorem C23_reverse : forall (V : Type) c (b : list V) src,
  zlen b <= LONG_MAX -> view_slice c (VBase (zlen b)) Reverse = Ok src ->
  exists b', view_assign_view c (VBase (zlen b)) src b = MOk b' /\ zlen b' = zlen b /\
    forall k, 0 <= k < zlen b -> znth b' k = if 2 * k <? zlen b then znth b (zlen b - 1 - k) else znth b k.
Proof. exact @assign_reverse. Qed.
Print Assumptions C23_reverse.

(** A right shift by d repeats the first d elements. *)
Theorem C23_right_shift : forall (V : Type) c (b : list V) d dst src,
  zlen b <= LONG_MAX -> 0 < d <= zlen b ->
  view_slice c (VBase (zlen b)) (LastN (zlen b - d)) = Ok dst ->
  view_slice c (VBase (zlen b)) (FirstN (zlen b - d)) = Ok src ->
  exists b', view_assign_view c dst src b = MOk b' /\ zlen b' = zlen b /\
    forall k, 0 <= k < zlen b -> znth b' k = znth b (k mod d).
Proof. exact @assign_right_shift. Qed.
Print Assumptions C23_right_shift.

(** Hence snapshot semantics fails for overlapping assignments. *)
Theorem C23_snapshot_refuted : exists (b : list Z) src b',
  view_slice c_dbg (VBase (zlen b)) Reverse = Ok src /\
  view_assign_view c_dbg (VBase (zlen b)) src b = MOk b' /\ b' <> rev b.
Proof. exact snapshot_refuted. Qed.
Print Assumptions C23_snapshot_refuted.

(** Assignment to a whole array from one of its slices runs the same loop. *)
Theorem C23_whole_array : forall (V : Type) c (a : arr V) src, an a = zlen (buf a) ->
  arr_assign_rd c (view_size src) (fun b i => view_un src b i) a =
  with_buf a (view_assign_view c (VBase (an a)) src (buf a)).
Proof. exact @arr_assign_view_same. Qed.
Print Assumptions C23_whole_array.

Example C23_case :
  (match view_slice c_dbg (VBase 5) (FirstN 3), view_slice c_dbg (VBase 5) (LastN 3) with
   | Ok d, Ok s => view_assign_view c_dbg d s [1; 2; 3; 4; 5] | _, _ => MUB end) = MOk [3; 4; 5; 4; 5] /\
  (match view_slice c_dbg (VBase 5) (LastN 4), view_slice c_dbg (VBase 5) (FirstN 4) with
   | Ok d, Ok s => view_assign_view c_dbg d s [1; 2; 3; 4; 5] | _, _ => MUB end) = MOk [1; 1; 1; 1; 1].
Proof. vm_compute. repeat split. Qed.
