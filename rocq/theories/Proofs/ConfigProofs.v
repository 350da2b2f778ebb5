(** Build configurations: the outcomes of every operation under two configurations are related.
    [c] stops at violated checks.  With [b = false] nothing is asked about [c'], and what succeeds under [c] succeeds in
    the same way under [c']; with [b = true] [c'] also stops at violated checks, and the outcomes agree completely up to
    the way in which an error is reported. *)
From Verif Require Import Base.Outcome Base.ZList Model.IntModel Model.ScalarOps Model.Index Model.Slice Model.Array1D
  Model.Array2D Model.View2D Model.Store1D Model.Store2D Model.Iterator Model.Expr Model.Reduce Model.ViewAssign
  Model.StableOps Model.SemiRandom Model.ArrayIO Spec.ConfigSpec.

Section Rel.
Context (b : bool).

Lemma same_fail_refl f : same_fail f f.
Proof. split; auto. Qed.
Lemma rel_refl {A} (m : outcome A) : rel b eq m m.
Proof. destruct m; cbn; auto. destruct b; auto using same_fail_refl. Qed.
Lemma rel_ok {A B} (R : A -> B -> Prop) v v' : R v v' -> rel b R (Ok v) (Ok v').
Proof. exact (fun H => H). Qed.
Lemma rel_fail {A B} (R : A -> B -> Prop) f : rel b R (Fail f) (Fail f).
Proof. cbn. destruct b; auto using same_fail_refl. Qed.
Lemma rel_ub {A B} (R : A -> B -> Prop) : rel b R UB UB.
Proof. exact I. Qed.
Lemma rel_bind {A A' B B'} (R : A -> A' -> Prop) (Q : B -> B' -> Prop) m m' k k' :
  rel b R m m' -> (forall x x', R x x' -> rel b Q (k x) (k' x')) -> rel b Q (bind m k) (bind m' k').
Proof.
  intros H1 H2. destruct m as [v|f|], m' as [v'|f'|]; cbn in *; auto; try contradiction;
    try (destruct (k v)); try (destruct (k' v')); auto; subst; auto.
Qed.
Lemma rel_bind_eq {A B B'} (Q : B -> B' -> Prop) (m m' : outcome A) k k' :
  rel b eq m m' -> (forall x, rel b Q (k x) (k' x)) -> rel b Q (bind m k) (bind m' k').
Proof. intros H1 H2. eapply rel_bind; [exact H1|intros x x' ->; auto]. Qed.
Lemma rel_weaken {A B} (R Q : A -> B -> Prop) m m' : (forall x y, R x y -> Q x y) -> rel b R m m' -> rel b Q m m'.
Proof. intros H. destruct m, m'; cbn; auto. Qed.
Lemma rel_oand m1 m1' m2 m2' : rel b eq m1 m1' -> rel b eq m2 m2' -> rel b eq (oand m1 m2) (oand m1' m2').
Proof. intros H1 H2. apply rel_bind_eq; [auto|intros x]. apply rel_bind_eq; [auto|intros y]. apply rel_refl. Qed.
Lemma rel_for {S S'} (R : S -> S' -> Prop) lo hi f f' s s' :
  R s s' -> (forall i x x', R x x' -> rel b R (f i x) (f' i x')) -> rel b R (for_ lo hi f s) (for_ lo hi f' s').
Proof.
  intros Hs H. unfold for_. generalize (Z.to_nat (hi - lo)) as k. intros k. revert lo s s' Hs.
  induction k; intros lo s s' Hs; cbn; [exact Hs|].
  eapply rel_bind; [apply H, Hs|]. intros x x' Hx. apply IHk, Hx.
Qed.
Lemma rel_for_eq {S} lo hi f f' (s : S) :
  (forall i x, rel b eq (f i x) (f' i x)) -> rel b eq (for_ lo hi f s) (for_ lo hi f' s).
Proof. intros H. apply rel_for; [reflexivity|intros i x x' ->; apply H]. Qed.
Lemma rel_noexcept {A B} (R : A -> B -> Prop) m m' : rel b R m m' -> rel b R (noexcept m) (noexcept m').
Proof.
  destruct m as [v|f|], m' as [v'|f'|]; cbn; auto; try contradiction; try (destruct f); try (destruct f'); cbn; auto;
    destruct b; auto; unfold same_fail; intuition discriminate.
Qed.
Lemma relm_refl {A} (m : mut A) : relm b eq m m.
Proof. destruct m; cbn; auto. destruct b; auto using same_fail_refl. Qed.
Lemma relm_commit {A} (s : A) m m' : rel b eq m m' -> relm b eq (commit s m) (commit s m').
Proof. destruct m, m'; cbn; auto. destruct b; auto. Qed.
Lemma relm_mbind {S T} (m m' : mut S) (k k' : S -> mut T) lift :
  relm b eq m m' -> (forall x, relm b eq (k x) (k' x)) -> relm b eq (mbind m k lift) (mbind m' k' lift).
Proof.
  intros H1 H2. destruct m as [v|f s|], m' as [v'|f' s'|]; cbn in *; auto; try contradiction; subst; auto;
    try (destruct (k v)); try (destruct (k' v')); auto; subst; auto.
  destruct b; auto. destruct H1. subst. auto.
Qed.
Lemma relm_mfor {S} lo hi f f' (s : S) :
  (forall i x, relm b eq (f i x) (f' i x)) -> relm b eq (mfor lo hi f s) (mfor lo hi f' s).
Proof.
  intros H. unfold mfor. generalize (Z.to_nat (hi - lo)) as k. intros k. revert lo s.
  induction k; intros lo s; cbn; [reflexivity|]. apply relm_mbind; auto.
Qed.
(** Elimination: a check or a size, then an in-place operation. *)
Lemma relm_guard {A S} (m m' : outcome A) (k k' : A -> mut S) s :
  rel b eq m m' -> (forall x, relm b eq (k x) (k' x)) ->
  relm b eq (match m with Ok x => k x | Fail f => MFail f s | UB => MUB end)
            (match m' with Ok x => k' x | Fail f => MFail f s | UB => MUB end).
Proof.
  intros H1 H2. destruct m as [v|f|], m' as [v'|f'|]; cbn in *; auto; try contradiction; subst; auto;
    try (destruct (k v)); try (destruct (k' v')); auto; subst; auto.
  destruct b; auto.
Qed.
Lemma rel_mut {S} (m m' : mut S) :
  relm b eq m m' -> rel b eq (match m with MOk a => Ok a | MFail f _ => Fail f | MUB => UB end)
                             (match m' with MOk a => Ok a | MFail f _ => Fail f | MUB => UB end).
Proof. destruct m, m'; cbn; auto. destruct b; tauto. Qed.
End Rel.

#[global] Hint Resolve rel_refl relm_refl rel_fail rel_ub : cf.

(** One step of the comparison of two runs of the same code. *)
Ltac cf_step :=
  match goal with
  | |- rel _ eq ?m ?m => apply rel_refl
  | |- relm _ eq ?m ?m => apply relm_refl
  | |- rel _ _ (Fail ?f) (Fail ?f) => apply rel_fail
  | |- rel _ _ UB UB => apply rel_ub
  | |- rel _ _ (bind _ _) (bind _ _) => eapply rel_bind_eq; [ | intros ? ]
  | |- rel _ eq (oand _ _) (oand _ _) => apply rel_oand
  | |- rel _ eq (for_ _ _ _ _) (for_ _ _ _ _) => apply rel_for_eq; intros ? ?
  | |- rel _ _ (noexcept _) (noexcept _) => apply rel_noexcept
  | |- relm _ eq (commit _ _) (commit _ _) => apply relm_commit
  | |- relm _ eq (mbind _ _ _) (mbind _ _ _) => apply relm_mbind; [ | intros ? ]
  | |- relm _ eq (mfor _ _ _ _) (mfor _ _ _ _) => apply relm_mfor; intros ? ?
  | |- rel _ _ (if ?x then _ else _) (if ?x then _ else _) => destruct x
  | |- relm _ _ (if ?x then _ else _) (if ?x then _ else _) => destruct x
  | |- rel _ _ (let (_, _) := ?x in _) (let (_, _) := ?x in _) => destruct x
  | |- rel _ _ (match ?x with _ => _ end) (match ?x with _ => _ end) => destruct x
  | |- relm _ _ (match ?x with Ok _ => _ | _ => _ end) (match ?y with Ok _ => _ | _ => _ end) => apply relm_guard; [ | intros ? ]
  | |- relm _ _ (match ?x with _ => _ end) (match ?x with _ => _ end) => destruct x
  | |- rel _ _ (match ?x with MOk _ => _ | _ => _ end) (match ?y with MOk _ => _ | _ => _ end) => apply rel_mut
  end.
Ltac cf := repeat (first [ cf_step | solve [auto with cf] ]).

Section Checked.
Context (b : bool) (c c' : cfg).
Hypothesis (Ha : amax c' = amax c) (Hc : checked c = true) (Hb : b = true -> checked c' = true).

Lemma rel_check_always x : rel b eq (check_always c x) (check_always c' x).
Proof.
  unfold checked in *. destruct x; [reflexivity|]. unfold check_always.
  destruct b; [specialize (Hb eq_refl)|clear Hb]; destruct (dbg c), (exc c), (ndbg c), (dbg c'), (exc c'), (ndbg c');
    cbn in *; try discriminate; auto; unfold same_fail; intuition discriminate.
Qed.
Lemma rel_check_debug ob ob' : rel b eq ob ob' -> rel b eq (check_debug c ob) (check_debug c' ob').
Proof.
  intros H. unfold check_debug. pose proof rel_check_always as HA.
  assert (Hd : dbg c = true) by (unfold checked in Hc; destruct (dbg c); [reflexivity|discriminate]). rewrite Hd.
  destruct (dbg c') eqn:E.
  - eapply rel_bind_eq; [exact H|exact HA].
  - assert (b = false) as Hf by (destruct b; [specialize (Hb eq_refl); unfold checked in Hb; rewrite E in Hb; discriminate|reflexivity]).
    revert H. rewrite Hf in *. destruct ob as [[]|f|]; cbn; auto.
    unfold checked in Hc. unfold check_always. destruct (exc c), (ndbg c); cbn; auto.
Qed.
Hint Resolve rel_check_always rel_check_debug : cf.

(** ** Arithmetic *)
Lemma rel_ldiv x y : rel b eq (ldiv c x y) (ldiv c' x y).
Proof. unfold ldiv. cf. Qed.
Lemma rel_lmod x y : rel b eq (lmod c x y) (lmod c' x y).
Proof. unfold lmod. cf. Qed.
Lemma rel_idiv t x y : rel b eq (idiv c t x y) (idiv c' t x y).
Proof. unfold idiv. cf. Qed.
Lemma rel_imod t x y : rel b eq (imod c t x y) (imod c' t x y).
Proof. unfold imod. cf. Qed.
Lemma rel_ishl t x y : rel b eq (ishl c t x y) (ishl c' t x y).
Proof. unfold ishl. cf. Qed.
Lemma rel_ishr t x y : rel b eq (ishr c t x y) (ishr c' t x y).
Proof. unfold ishr. cf. Qed.
Hint Resolve rel_ldiv rel_lmod rel_idiv rel_imod rel_ishl rel_ishr : cf.
Lemma rel_iop t o x y : rel b eq (iop_fun c t o x y) (iop_fun c' t o x y).
Proof. unfold iop_fun. cf. Qed.
Lemma rel_pows t x p : rel b eq (pows c t x p) (pows c' t x p).
Proof. unfold pows. cf. Qed.
Lemma rel_factorial n : rel b eq (factorial c n) (factorial c' n).
Proof.
  unfold factorial. generalize (S (Z.to_nat n)) as k. intros k. revert n.
  induction k; intros n; cbn [factorial_rec]; cf.
Qed.
Lemma rel_binom n k : rel b eq (binom_coeff c n k) (binom_coeff c' n k).
Proof.
  unfold binom_coeff. cf.
  assert (H : forall f lim p f1 f2, rel b eq (binom_loop c f lim p f1 f2) (binom_loop c' f lim p f1 f2)).
  { induction f; intros; cbn [binom_loop]; cf. }
  apply H.
Qed.
Lemma rel_clamps x l h : rel b eq (clamps c x l h) (clamps c' x l h).
Proof. unfold clamps. cf. Qed.
Lemma rel_in_open x l h : rel b eq (in_open c x l h) (in_open c' x l h).
Proof. unfold in_open. cf. Qed.
Lemma rel_in_closed x l h : rel b eq (in_closed c x l h) (in_closed c' x l h).
Proof. unfold in_closed. cf. Qed.
Hint Resolve rel_iop rel_pows rel_factorial rel_binom rel_clamps rel_in_open rel_in_closed : cf.

(** ** Indexes and slices *)
Lemma rel_nonneg x : rel b eq (nonneg_arg c x) (nonneg_arg c' x).
Proof. unfold nonneg_arg. cf. Qed.
Lemma rel_complement n v : rel b eq (complement_index_vector c n v) (complement_index_vector c' n v).
Proof. unfold complement_index_vector. cf. Qed.
Lemma rel_map12 n i : rel b eq (index_map_one_to_two c n i) (index_map_one_to_two c' n i).
Proof. unfold index_map_one_to_two. cf. Qed.
Lemma rel_ivs n s d : rel b eq (implicit_vector_sequence c n s d) (implicit_vector_sequence c' n s d).
Proof. unfold implicit_vector_sequence. cf. Qed.
Lemma rel_make_seqn s n d : rel b eq (make_seqn c s n d) (make_seqn c' s n d).
Proof. unfold make_seqn. cf. Qed.
Hint Resolve rel_nonneg rel_complement rel_map12 rel_ivs rel_make_seqn : cf.
Lemma rel_seq_to_slice f l d : rel b eq (seq_to_slice c f l d) (seq_to_slice c' f l d).
Proof. unfold seq_to_slice. cf. Qed.
Hint Resolve rel_seq_to_slice : cf.
Lemma rel_slice_resolve n e s : rel b eq (slice_resolve c n e s) (slice_resolve c' n e s).
Proof. unfold slice_resolve. cf. Qed.
Hint Resolve rel_slice_resolve : cf.
Lemma rel_view_slice v s : rel b eq (view_slice c v s) (view_slice c' v s).
Proof. unfold view_slice. cf. Qed.
Hint Resolve rel_view_slice : cf.
Lemma rel_view_slices ss v : rel b eq (view_slices c v ss) (view_slices c' v ss).
Proof. revert v. induction ss; intros v; cbn [view_slices]; cf. Qed.
Lemma rel_view_sub {V} v (l : list V) ix : rel b eq (view_sub c v l ix) (view_sub c' v l ix).
Proof. unfold view_sub. cf. Qed.
Lemma rel_view_write {V} v (l : list V) ix x : rel b eq (view_write c v l ix x) (view_write c' v l ix x).
Proof. unfold view_write. cf. Qed.
Lemma relm_view_assign_rd {V} v n rd (l : list V) : relm b eq (view_assign_rd c v n rd l) (view_assign_rd c' v n rd l).
Proof. unfold view_assign_rd. cf. Qed.
Hint Resolve rel_view_slices rel_view_sub rel_view_write relm_view_assign_rd : cf.

(** ** Owning arrays *)
Lemma rel_alloc {V} (z : V) n : rel b eq (alloc z c n) (alloc z c' n).
Proof. unfold alloc. rewrite Ha. cf. Qed.
Hint Resolve rel_alloc : cf.
Lemma rel_arr_new {V} (z : V) n : rel b eq (arr_new z c n) (arr_new z c' n).
Proof. unfold arr_new. cf. Qed.
Hint Resolve rel_arr_new : cf.
Lemma rel_arr_new_fill {V} (z : V) n x : rel b eq (arr_new_fill z c n x) (arr_new_fill z c' n x).
Proof. unfold arr_new_fill. cf. Qed.
Lemma rel_arr_of_src {V} (z : V) A : rel b eq (arr_of_src z c A) (arr_of_src z c' A).
Proof. unfold arr_of_src. cf. Qed.
Lemma rel_arr_of_iter {V} (z : V) l p q : rel b eq (arr_of_iter z c l p q) (arr_of_iter z c' l p q).
Proof. unfold arr_of_iter. cf. Qed.
Lemma relm_arr_assign_rd {V} n rd (a : arr V) : relm b eq (arr_assign_rd c n rd a) (arr_assign_rd c' n rd a).
Proof. unfold arr_assign_rd. cf. Qed.
Lemma rel_arr_resize {V} (z : V) n p a : rel b eq (arr_resize z c n p a) (arr_resize z c' n p a).
Proof. unfold arr_resize. cf. Qed.
Lemma rel_arr_remove {V} (z : V) p k a : rel b eq (arr_remove z c p k a) (arr_remove z c' p k a).
Proof. unfold arr_remove. cf. Qed.
Lemma rel_arr_remove_indexes {V} (z : V) v a : rel b eq (arr_remove_indexes z c v a) (arr_remove_indexes z c' v a).
Proof. unfold arr_remove_indexes. cf. Qed.
Lemma rel_arr_insert {V} (z : V) p x a : rel b eq (arr_insert z c p x a) (arr_insert z c' p x a).
Proof. unfold arr_insert. cf. Qed.
Lemma rel_arr_insert_arr {V} (z : V) p A a : rel b eq (arr_insert_arr z c p A a) (arr_insert_arr z c' p A a).
Proof. unfold arr_insert_arr. cf. Qed.
Lemma rel_arr_write {V} ix x (a : arr V) : rel b eq (arr_write c ix x a) (arr_write c' ix x a).
Proof. unfold arr_write. cf. Qed.
Lemma rel_sub1 {V} (A : src1 V) ix : rel b eq (sub1 c A ix) (sub1 c' A ix).
Proof. unfold sub1. cf. Qed.
Lemma rel_at1 {V} (A : src1 V) ix : rel b eq (at1 c A ix) (at1 c' A ix).
Proof. unfold at1. cf. Qed.
Hint Resolve rel_arr_new_fill rel_arr_of_src rel_arr_of_iter relm_arr_assign_rd rel_arr_resize rel_arr_remove
  rel_arr_remove_indexes rel_arr_insert rel_arr_insert_arr rel_arr_write rel_sub1 rel_at1 : cf.
Lemma rel_arr_remove_pc {V} (z : V) p k a : rel b eq (arr_remove_pc z c p k a) (arr_remove_pc z c' p k a).
Proof. unfold arr_remove_pc. cf. Qed.
Lemma rel_arr_remove_back {V} (z : V) k a : rel b eq (arr_remove_back z c k a) (arr_remove_back z c' k a).
Proof. unfold arr_remove_back. cf. Qed.
Lemma rel_arr_remove_last {V} (z : V) k a : rel b eq (arr_remove_last z c k a) (arr_remove_last z c' k a).
Proof. unfold arr_remove_last. cf. Qed.
Lemma rel_slice_src {V} (a : arr V) s : rel b eq (slice_src c a s) (slice_src c' a s).
Proof. unfold slice_src. cf. Qed.
Hint Resolve rel_arr_remove_pc rel_arr_remove_back rel_arr_remove_last rel_slice_src : cf.

Lemma rel_arr2_new {V} (z : V) m n : rel b eq (arr2_new z c m n) (arr2_new z c' m n).
Proof. unfold arr2_new. cf. Qed.
Hint Resolve rel_arr2_new : cf.
Lemma rel_arr2_new_fill {V} (z : V) m n x : rel b eq (arr2_new_fill z c m n x) (arr2_new_fill z c' m n x).
Proof. unfold arr2_new_fill. cf. Qed.
Lemma rel_arr2_of_list {V} (z : V) L : rel b eq (arr2_of_list z c L) (arr2_of_list z c' L).
Proof. unfold arr2_of_list. cf. Qed.
Lemma rel_arr2_of_src {V} (z : V) A : rel b eq (arr2_of_src z c A) (arr2_of_src z c' A).
Proof. unfold arr2_of_src. cf. Qed.
Lemma rel_arr2_of_arr {V} (z : V) A : rel b eq (arr2_of_arr z c A) (arr2_of_arr z c' A).
Proof. unfold arr2_of_arr. cf. Qed.
Lemma rel_arr2_copy {V} (z : V) A : rel b eq (arr2_copy z c A) (arr2_copy z c' A).
Proof. unfold arr2_copy. cf. Qed.
Lemma relm_arr2_assign_arr {V} s (a : arr2 V) : relm b eq (arr2_assign_arr c s a) (arr2_assign_arr c' s a).
Proof. unfold arr2_assign_arr, arr_assign_arr, arr_assign. cf. Qed.
Lemma relm_arr2_assign_rd {V} m n rd (a : arr2 V) : relm b eq (arr2_assign_rd c m n rd a) (arr2_assign_rd c' m n rd a).
Proof. unfold arr2_assign_rd. cf. Qed.
Lemma rel_arr2_resize {V} (z : V) m n p a : rel b eq (arr2_resize z c m n p a) (arr2_resize z c' m n p a).
Proof. unfold arr2_resize. cf. Qed.
Lemma rel_arr2_remove_rows {V} (z : V) p k a : rel b eq (arr2_remove_rows z c p k a) (arr2_remove_rows z c' p k a).
Proof. unfold arr2_remove_rows. cf. Qed.
Lemma rel_arr2_remove_cols {V} (z : V) p k a : rel b eq (arr2_remove_cols z c p k a) (arr2_remove_cols z c' p k a).
Proof. unfold arr2_remove_cols. cf. Qed.
Hint Resolve rel_arr2_new_fill rel_arr2_of_list rel_arr2_of_src rel_arr2_of_arr rel_arr2_copy relm_arr2_assign_arr
  relm_arr2_assign_rd rel_arr2_resize rel_arr2_remove_rows rel_arr2_remove_cols : cf.
Lemma rel_arr2_remove_row_last {V} (z : V) k a : rel b eq (arr2_remove_row_last z c k a) (arr2_remove_row_last z c' k a).
Proof. unfold arr2_remove_row_last, arr2_remove_row. cf. Qed.
Lemma rel_arr2_remove_col_last {V} (z : V) k a : rel b eq (arr2_remove_col_last z c k a) (arr2_remove_col_last z c' k a).
Proof. unfold arr2_remove_col_last, arr2_remove_col. cf. Qed.
Lemma rel_arr2_remove_rows_back {V} (z : V) k a : rel b eq (arr2_remove_rows_back z c k a) (arr2_remove_rows_back z c' k a).
Proof. unfold arr2_remove_rows_back. cf. Qed.
Lemma rel_arr2_remove_cols_back {V} (z : V) k a : rel b eq (arr2_remove_cols_back z c k a) (arr2_remove_cols_back z c' k a).
Proof. unfold arr2_remove_cols_back. cf. Qed.
Lemma rel_arr2_remove_rows_idx {V} (z : V) v a : rel b eq (arr2_remove_rows_idx z c v a) (arr2_remove_rows_idx z c' v a).
Proof. unfold arr2_remove_rows_idx. cf. Qed.
Lemma rel_arr2_remove_cols_idx {V} (z : V) v a : rel b eq (arr2_remove_cols_idx z c v a) (arr2_remove_cols_idx z c' v a).
Proof. unfold arr2_remove_cols_idx. cf. Qed.
Lemma rel_arr2_insert_rows_gen {V} (z : V) fr fr' p A a :
  rel b eq fr fr' -> rel b eq (arr2_insert_rows_gen z c fr p A a) (arr2_insert_rows_gen z c' fr' p A a).
Proof. intros. unfold arr2_insert_rows_gen. cf. Qed.
Lemma rel_arr2_insert_cols_gen {V} (z : V) fr fr' p A a :
  rel b eq fr fr' -> rel b eq (arr2_insert_cols_gen z c fr p A a) (arr2_insert_cols_gen z c' fr' p A a).
Proof. intros. unfold arr2_insert_cols_gen. cf. Qed.
Lemma rel_arr2_insert_row {V} (z : V) p A a : rel b eq (arr2_insert_row z c p A a) (arr2_insert_row z c' p A a).
Proof. unfold arr2_insert_row. cf. Qed.
Lemma rel_arr2_insert_col {V} (z : V) p A a : rel b eq (arr2_insert_col z c p A a) (arr2_insert_col z c' p A a).
Proof. unfold arr2_insert_col. cf. Qed.
Lemma rel_sub2 {V} (A : src2 V) ix jx : rel b eq (sub2 c A ix jx) (sub2 c' A ix jx).
Proof. unfold sub2. cf. Qed.
Lemma rel_at2 {V} (A : src2 V) ix jx : rel b eq (at2 c A ix jx) (at2 c' A ix jx).
Proof. unfold at2. cf. Qed.
Lemma rel_arr2_write {V} ix jx x (a : arr2 V) : rel b eq (arr2_write c ix jx x a) (arr2_write c' ix jx x a).
Proof. unfold arr2_write. cf. Qed.
Hint Resolve rel_arr2_remove_row_last rel_arr2_remove_col_last rel_arr2_remove_rows_back rel_arr2_remove_cols_back
  rel_arr2_remove_rows_idx rel_arr2_remove_cols_idx rel_arr2_insert_rows_gen rel_arr2_insert_cols_gen rel_arr2_insert_row
  rel_arr2_insert_col rel_sub2 rel_at2 rel_arr2_write : cf.

(** ** Views *)
Lemma rel_o_lin_at o : (forall i, rel b eq (o_lin c o i) (o_lin c' o i)) /\ (forall i j, rel b eq (o_at c o i j) (o_at c' o i j)).
Proof.
  induction o as [n|m n k|o [IH1 IH2] r|o [IH1 IH2] r1 r2|o [IH1 IH2] m n]; split; intros; cbn [o_lin o_at]; cf.
Qed.
Lemma rel_o_lin o i : rel b eq (o_lin c o i) (o_lin c' o i).
Proof. apply rel_o_lin_at. Qed.
Lemma rel_o_at o i j : rel b eq (o_at c o i j) (o_at c' o i j).
Proof. apply rel_o_lin_at. Qed.
Lemma rel_o_slice1 o s : rel b eq (o_slice1 c o s) (o_slice1 c' o s).
Proof. unfold o_slice1. cf. Qed.
Lemma rel_o_make2 o r1 r2 : rel b eq (o_make2 c o r1 r2) (o_make2 c' o r1 r2).
Proof. unfold o_make2. cf. Qed.
Lemma rel_slice_ctor s : rel b eq (slice_ctor c s) (slice_ctor c' s).
Proof. unfold slice_ctor. cf. Qed.
Lemma rel_o_resolve2 o s1 s2 : rel b eq (o_resolve2 c o s1 s2) (o_resolve2 c' o s1 s2).
Proof. unfold o_resolve2. cf. Qed.
Hint Resolve rel_o_lin rel_o_at rel_o_slice1 rel_o_make2 rel_slice_ctor rel_o_resolve2 : cf.
Lemma rel_o_slice2 o s1 s2 : rel b eq (o_slice2 c o s1 s2) (o_slice2 c' o s1 s2).
Proof. unfold o_slice2. cf. Qed.
Lemma rel_o_view1 o : rel b eq (o_view1 c o) (o_view1 c' o).
Proof. unfold o_view1. cf. Qed.
Hint Resolve rel_o_slice2 rel_o_view1 : cf.
Lemma rel_o_row o ix : rel b eq (o_row c o ix) (o_row c' o ix).
Proof. unfold o_row. cf. Qed.
Lemma rel_o_col o ix : rel b eq (o_col c o ix) (o_col c' o ix).
Proof. unfold o_col. cf. Qed.
Hint Resolve rel_o_row rel_o_col : cf.
Lemma rel_o_apply o w : rel b eq (o_apply c o w) (o_apply c' o w).
Proof.
  unfold o_apply, o_rows_slice, o_cols_slice, o_diag0, o_diag, o_block, o_blockN, o_view2. cf.
Qed.
Hint Resolve rel_o_apply : cf.
Lemma rel_o_chain ws o : rel b eq (o_chain c o ws) (o_chain c' o ws).
Proof. revert o. induction ws; intros o; cbn [o_chain]; cf. Qed.
Lemma rel_o_get {V} o (l : list V) i : rel b eq (o_get c o l i) (o_get c' o l i).
Proof. unfold o_get. cf. Qed.
Lemma rel_o_get2 {V} o (l : list V) i j : rel b eq (o_get2 c o l i j) (o_get2 c' o l i j).
Proof. unfold o_get2. cf. Qed.
Lemma rel_o_set {V} o (l : list V) i x : rel b eq (o_set c o l i x) (o_set c' o l i x).
Proof. unfold o_set. cf. Qed.
Lemma rel_o_set2 {V} o (l : list V) i j x : rel b eq (o_set2 c o l i j x) (o_set2 c' o l i j x).
Proof. unfold o_set2. cf. Qed.
Hint Resolve rel_o_chain rel_o_get rel_o_get2 rel_o_set rel_o_set2 : cf.
Lemma rel_o_sub1 {V} o (l : list V) ix : rel b eq (o_sub1 c o l ix) (o_sub1 c' o l ix).
Proof. unfold o_sub1. cf. Qed.
Lemma rel_o_sub2 {V} o (l : list V) ix jx : rel b eq (o_sub2 c o l ix jx) (o_sub2 c' o l ix jx).
Proof. unfold o_sub2. cf. Qed.
Hint Resolve rel_o_sub1 rel_o_sub2 : cf.

(** ** Iterators *)
Lemma rel_somewhere it : rel b eq (somewhere c it) (somewhere c' it).
Proof. unfold somewhere. cf. Qed.
Hint Resolve rel_somewhere : cf.
Lemma rel_it_addeq it k : rel b eq (it_addeq c it k) (it_addeq c' it k).
Proof. unfold it_addeq. cf. Qed.
Lemma rel_it_subeq it k : rel b eq (it_subeq c it k) (it_subeq c' it k).
Proof. unfold it_subeq. cf. Qed.
Lemma rel_it_inc it : rel b eq (it_inc c it) (it_inc c' it).
Proof. unfold it_inc. cf. Qed.
Lemma rel_it_dec it : rel b eq (it_dec c it) (it_dec c' it).
Proof. unfold it_dec. cf. Qed.
Hint Resolve rel_it_addeq rel_it_subeq rel_it_inc rel_it_dec : cf.
Lemma rel_it_post_inc it : rel b eq (it_post_inc c it) (it_post_inc c' it).
Proof. unfold it_post_inc. cf. Qed.
Lemma rel_it_post_dec it : rel b eq (it_post_dec c it) (it_post_dec c' it).
Proof. unfold it_post_dec. cf. Qed.
Lemma rel_it_plus it k : rel b eq (it_plus c it k) (it_plus c' it k).
Proof. unfold it_plus. cf. Qed.
Lemma rel_it_minus it k : rel b eq (it_minus c it k) (it_minus c' it k).
Proof. unfold it_minus. cf. Qed.
Hint Resolve rel_it_post_inc rel_it_post_dec rel_it_plus rel_it_minus : cf.
Lemma rel_it_plus_l k it : rel b eq (it_plus_l c k it) (it_plus_l c' k it).
Proof. unfold it_plus_l. cf. Qed.
Lemma rel_it_diff x y : rel b eq (it_diff c x y) (it_diff c' x y).
Proof. unfold it_diff. cf. Qed.
Lemma rel_it_cmp k x y : rel b eq (it_cmp c k x y) (it_cmp c' k x y).
Proof. unfold it_cmp. cf. Qed.
Hint Resolve rel_it_plus_l rel_it_diff rel_it_cmp : cf.
Section Env.
Context {R : Type} (E E' : env R) (HE : forall p, flag_like b (E p) (E' p)).
Lemma rel_target {A A'} (Q : A -> A' -> Prop) it k k' :
  (forall F F', flag_like b F F' -> rel b Q (k F) (k' F')) -> rel b Q (F <- target E it ;; k F) (F <- target E' it ;; k' F).
Proof. intros H. unfold target. destruct (it_ptr it) as [p|]; cbn; auto with cf. Qed.
Lemma rel_it_end p : rel b eq (it_end E p) (it_end E' p).
Proof. unfold it_end. destruct (HE p) as [H1 H2]. cf. Qed.
Lemma rel_it_sub it k : rel b eq (it_sub c E it k) (it_sub c' E' it k).
Proof.
  unfold it_sub. eapply rel_bind_eq; [apply rel_somewhere|intros _].
  eapply rel_bind_eq; [apply rel_check_debug|intros _]; apply rel_target; intros F F' [H1 H2]; cf.
Qed.
Lemma rel_it_deref it : rel b eq (it_deref c E it) (it_deref c' E' it).
Proof.
  unfold it_deref. eapply rel_bind_eq; [apply rel_somewhere|intros _].
  eapply rel_bind_eq; [apply rel_check_debug|intros _]; apply rel_target; intros F F' [H1 H2]; cf.
Qed.
Hint Resolve rel_it_end rel_it_sub rel_it_deref : cf.
Lemma rel_it_walk k : forall it l, rel b eq (it_walk k c E it l) (it_walk k c' E' it l).
Proof. induction k; intros it l; cbn [it_walk]; cf. Qed.
Lemma rel_r_deref it : rel b eq (r_deref c E it) (r_deref c' E' it).
Proof. unfold r_deref. cf. Qed.
Hint Resolve rel_r_deref : cf.
Lemma rel_r_walk k : forall it l, rel b eq (r_walk k c E it l) (r_walk k c' E' it l).
Proof. unfold r_inc in *. induction k; intros it l; cbn [r_walk]; unfold r_inc; cf. Qed.
Lemma rel_it_eval p e : rel b eq (it_eval c E p e) (it_eval c' E' p e).
Proof. induction e; cbn [it_eval]; cf. Qed.
End Env.
Lemma rel_it_write {V} (h : Z -> list V) it v : rel b eq (it_write c h it v) (it_write c' h it v).
Proof. unfold it_write. cf. Qed.
Lemma flag_like_elems o : flag_like b (flag_elems c o) (flag_elems c' o).
Proof. split; cbn; intros; cf. Qed.
Lemma flag_like_rows o : flag_like b (flag_rows c o) (flag_rows c' o).
Proof. split; cbn; intros; cf. Qed.
Lemma flag_like_cols o : flag_like b (flag_cols c o) (flag_cols c' o).
Proof. split; cbn; intros; cf. Qed.
Lemma rel_pit_make i j m n : rel b eq (pit_make c i j m n) (pit_make c' i j m n).
Proof. unfold pit_make. cf. Qed.
Lemma rel_pit_assign x y : rel b eq (pit_assign c x y) (pit_assign c' x y).
Proof. unfold pit_assign. cf. Qed.
Lemma rel_pit_inc p : rel b eq (pit_inc c p) (pit_inc c' p).
Proof. unfold pit_inc. cf. Qed.
Lemma rel_pit_eq x y : rel b eq (pit_eq c x y) (pit_eq c' x y).
Proof. unfold pit_eq. cf. Qed.
Hint Resolve rel_pit_make rel_pit_assign rel_pit_inc rel_pit_eq : cf.
Lemma rel_pit_ne x y : rel b eq (pit_ne c x y) (pit_ne c' x y).
Proof. unfold pit_ne. cf. Qed.
Lemma rel_pit_deref p : rel b eq (pit_deref c p) (pit_deref c' p).
Proof. unfold pit_deref. cf. Qed.
Hint Resolve rel_pit_ne rel_pit_deref : cf.
Lemma rel_pit_walk k : forall x y, rel b eq (pit_walk k c x y) (pit_walk k c' x y).
Proof. induction k; intros x y; cbn [pit_walk]; cf. Qed.
Hint Resolve rel_pit_walk : cf.
Lemma rel_range_walk k m n : rel b eq (range_walk k c m n) (range_walk k c' m n).
Proof. unfold range_walk, range_make, range_begin, range_end. cf. Qed.

(** ** Assignment through views *)
Section Assign.
Context {V : Type}.
Implicit Types (l : list V) (o : obj).
Lemma relm_update_loop o n g g' l :
  (forall l i v, rel b eq (g l i v) (g' l i v)) -> relm b eq (update_loop c o n g l) (update_loop c' o n g' l).
Proof. intros. unfold update_loop. cf. Qed.
Lemma relm_store_loop o n rd rd' l :
  (forall l, fun_like b (rd l) (rd' l)) -> relm b eq (store_loop c o n rd l) (store_loop c' o n rd' l).
Proof. intros H. unfold store_loop. cf. apply H. Qed.
Lemma relm_store_loop2 o m n rd rd' l :
  (forall l, fun2_like b (rd l) (rd' l)) -> relm b eq (store_loop2 c o m n rd l) (store_loop2 c' o m n rd' l).
Proof. intros H. unfold store_loop2. cf. apply H. Qed.
Lemma relm_v_op_scalar f f' o x l : fun2_like b f f' -> relm b eq (v_op_scalar c f o x l) (v_op_scalar c' f' o x l).
Proof. intros H. unfold v_op_scalar. cf. apply relm_update_loop. intros. apply H. Qed.
Lemma relm_v_op_array f f' o k rd rd' l : fun2_like b f f' -> (forall l, fun_like b (rd l) (rd' l)) ->
  relm b eq (v_op_array c f o k rd l) (v_op_array c' f' o k rd' l).
Proof. intros H H2. unfold v_op_array, guarded. cf. apply relm_update_loop. intros. cf; first [apply H2|apply H]. Qed.
Lemma relm_v_op_array2 f f' o m k rd rd' l : fun2_like b f f' -> (forall l, fun_like b (rd l) (rd' l)) ->
  relm b eq (v_op_array2 c f o m k rd l) (v_op_array2 c' f' o m k rd' l).
Proof. intros H H2. unfold v_op_array2, guarded. cf. apply relm_update_loop. intros. cf; first [apply H2|apply H]. Qed.
Lemma relm_v_fill o x l : relm b eq (v_fill c o x l) (v_fill c' o x l).
Proof. unfold v_fill. cf. apply relm_store_loop. intros l' i. cf. Qed.
Lemma relm_v_assign o k rd rd' l : (forall l, fun_like b (rd l) (rd' l)) -> relm b eq (v_assign c o k rd l) (v_assign c' o k rd' l).
Proof. intros. unfold v_assign, guarded. cf. apply relm_store_loop. auto. Qed.
Lemma relm_v_assign2 o m k rd rd' l :
  (forall l, fun2_like b (rd l) (rd' l)) -> relm b eq (v_assign2 c o m k rd l) (v_assign2 c' o m k rd' l).
Proof. intros. unfold v_assign2, guarded. cf. apply relm_store_loop2. auto. Qed.
Lemma relm_mnoexcept (m m' : mut (list V)) : relm b eq m m' -> relm b eq (mnoexcept m) (mnoexcept m').
Proof.
  destruct m as [v|f s|], m' as [v'|f' s'|]; cbn; auto; try contradiction; try (destruct f); try (destruct f'); cbn; auto;
    destruct b; auto; unfold same_fail; intuition discriminate.
Qed.
End Assign.

(** ** Expressions *)
Lemma src_like_refl {V} (A : src1 V) : src_like b A A.
Proof. split; [reflexivity|intros; apply rel_refl]. Qed.
Lemma src2_like_refl {V} (A : src2 V) : src2_like b A A.
Proof. repeat (split; [reflexivity|]). split; intros; apply rel_refl. Qed.
Hint Resolve src_like_refl src2_like_refl : cf.
Ltac src_split :=
  match goal with
  | H : src_like b ?A ?A' |- _ => let n := fresh "n" in let n' := fresh "n'" in let u := fresh "u" in let u' := fresh "u'" in
      destruct A as [n u], A' as [n' u']; destruct H as [H ?]; cbn [ssize sun] in *; subst; cbn [ssize sun]
  | H : src2_like b ?A ?A' |- _ =>
      let m := fresh "m" in let n := fresh "n" in let k := fresh "k" in let u := fresh "u" in let v := fresh "v" in
      let m' := fresh "m'" in let n' := fresh "n'" in let k' := fresh "k'" in let u' := fresh "u'" in let v' := fresh "v'" in
      destruct A as [m n k u v], A' as [m' n' k' u' v']; destruct H as (? & ? & ? & ? & ?); cbn [s2rows s2cols s2size s2un s2lin] in *; subst; cbn [s2rows s2cols s2size s2un s2lin]
  | H : fun_like b _ _ |- _ => unfold fun_like in H
  | H : fun2_like b _ _ |- _ => unfold fun2_like in H
  end.
Ltac sbind := eapply rel_bind; [ | intros ? ? ?; repeat src_split ].
Ltac smk := apply rel_ok; repeat split; cbn [ssize sun s2rows s2cols s2size s2un s2lin]; intros; cf.
Lemma x_un_like {V W} (f f' : V -> outcome W) A A' : fun_like b f f' -> src_like b A A' -> src_like b (x_un f A) (x_un f' A').
Proof. intros. repeat src_split. split; [reflexivity|]. cbn. intros. cf. Qed.
Lemma x_un2_like {V W} (f f' : V -> outcome W) A A' : fun_like b f f' -> src2_like b A A' -> src2_like b (x_un2 f A) (x_un2 f' A').
Proof. intros. repeat src_split. repeat split; cbn; intros; cf. Qed.
Lemma rel_x_bin {U V W} (f f' : U -> V -> outcome W) A A' B B' : fun2_like b f f' -> src_like b A A' -> src_like b B B' ->
  rel b (src_like b) (x_bin c f A B) (x_bin c' f' A' B').
Proof. intros. repeat src_split. unfold x_bin. cf. smk. Qed.
Lemma rel_x_bin2 {U V W} (f f' : U -> V -> outcome W) A A' B B' : fun2_like b f f' -> src2_like b A A' -> src2_like b B B' ->
  rel b (src2_like b) (x_bin2 c f A B) (x_bin2 c' f' A' B').
Proof. intros. repeat src_split. unfold x_bin2. cf. smk. Qed.
Lemma rel_x_seq {V} add add' mul mul' cast cast' n (s d : V) : fun2_like b add add' -> fun2_like b mul mul' -> fun_like b cast cast' ->
  rel b (src_like b) (x_seq c add mul cast n s d) (x_seq c' add' mul' cast' n s d).
Proof. intros. repeat src_split. unfold x_seq. cf. smk. Qed.
Lemma fun_like_refl {V W} (f : V -> outcome W) : fun_like b f f.
Proof. intros x. apply rel_refl. Qed.
Lemma fun2_like_refl {U V W} (f : U -> V -> outcome W) : fun2_like b f f.
Proof. intros x y. apply rel_refl. Qed.
Hint Resolve fun_like_refl fun2_like_refl x_un_like x_un2_like rel_x_bin rel_x_bin2 rel_x_seq : cf.
Lemma rel_x_linspace {V} add add' sub sub' mul mul' div div' cast cast' n (s d : V) :
  fun2_like b add add' -> fun2_like b sub sub' -> fun2_like b mul mul' -> fun2_like b div div' -> fun_like b cast cast' ->
  rel b (src_like b) (x_linspace c add sub mul div cast n s d) (x_linspace c' add' sub' mul' div' cast' n s d).
Proof. intros Hadd Hsub Hmul Hdiv Hcast. unfold x_linspace. cf. Qed.
Lemma rel_x_irange n : rel b (src_like b) (x_irange c n) (x_irange c' n).
Proof. unfold x_irange. cf. Qed.
Hint Resolve rel_x_irange : cf.
Lemma rel_x_irange_m1 n : rel b (src_like b) (x_irange_m1 c n) (x_irange_m1 c' n).
Proof. unfold x_irange_m1. cf. Qed.
Lemma rel_x_gen {V} n (g g' : Z -> outcome V) : fun_like b g g' -> rel b (src_like b) (x_gen c n g) (x_gen c' n g').
Proof. intros. unfold x_gen. eapply rel_bind; [apply rel_x_irange|]. intros A A' HA. apply rel_ok. auto with cf. Qed.
Hint Resolve rel_x_gen : cf.
Lemma rel_x_e_unit {V} (o z : V) u n : rel b (src_like b) (x_e_unit c o z u n) (x_e_unit c' o z u n).
Proof. unfold x_e_unit. cf. Qed.
Lemma rel_x_const1 {V} n (x : V) : rel b (src_like b) (x_const1 c n x) (x_const1 c' n x).
Proof. unfold x_const1. cf. Qed.
Lemma rel_x_index2 {V} m n (g g' : Z -> Z -> outcome V) : fun2_like b g g' -> rel b (src2_like b) (x_index2 c m n g) (x_index2 c' m n g').
Proof. intros. repeat src_split. unfold x_index2. cf. smk. Qed.
Hint Resolve rel_x_e_unit rel_x_const1 rel_x_index2 : cf.
Lemma rel_x_irange2 m n : rel b (src2_like b) (x_irange2 c m n) (x_irange2 c' m n).
Proof. unfold x_irange2. cf. Qed.
Lemma rel_x_gen2 {V} m n (g g' : Z -> outcome V) : fun_like b g g' -> rel b (src2_like b) (x_gen2 c m n g) (x_gen2 c' m n g').
Proof. intros. unfold x_gen2. eapply rel_bind; [apply rel_x_irange2|]. intros A A' HA. apply rel_ok. auto with cf. Qed.
Hint Resolve rel_x_irange2 rel_x_gen2 : cf.
Lemma rel_x_identity {V} (o z : V) n : rel b (src2_like b) (x_identity c o z n) (x_identity c' o z n).
Proof. unfold x_identity. cf. Qed.
Lemma rel_x_transpose {V} (A A' : src2 V) : src2_like b A A' -> rel b (src2_like b) (x_transpose c A) (x_transpose c' A').
Proof. intros. repeat src_split. unfold x_transpose. cbn. apply rel_x_index2. intros i j. auto. Qed.
Lemma rel_x_const2 {V} m n (x : V) : rel b (src2_like b) (x_const2 c m n x) (x_const2 c' m n x).
Proof. unfold x_const2. cf. Qed.
Hint Resolve rel_x_identity rel_x_transpose rel_x_const2 : cf.
Lemma rel_x_scal_r {U V W} (f f' : U -> V -> outcome W) A A' x : fun2_like b f f' -> src_like b A A' ->
  rel b (src_like b) (x_scal_r c f A x) (x_scal_r c' f' A' x).
Proof. intros Hf HA. unfold x_scal_r. rewrite <- (proj1 HA). eapply rel_bind; [apply rel_x_const1|]. auto with cf. Qed.
Lemma rel_x_scal_l {U V W} (f f' : U -> V -> outcome W) A A' x : fun2_like b f f' -> src_like b A A' ->
  rel b (src_like b) (x_scal_l c f x A) (x_scal_l c' f' x A').
Proof. intros Hf HA. unfold x_scal_l. rewrite <- (proj1 HA). eapply rel_bind; [apply rel_x_const1|]. auto with cf. Qed.
Lemma rel_x_scal2_r {U V W} (f f' : U -> V -> outcome W) A A' x : fun2_like b f f' -> src2_like b A A' ->
  rel b (src2_like b) (x_scal2_r c f A x) (x_scal2_r c' f' A' x).
Proof.
  intros Hf HA. unfold x_scal2_r. destruct HA as (H1 & H2 & HA). rewrite <- H1, <- H2.
  eapply rel_bind; [apply rel_x_const2|]. unfold src2_like in *. intros. apply rel_x_bin2; unfold src2_like; auto.
Qed.
Lemma rel_x_scal2_l {U V W} (f f' : U -> V -> outcome W) A A' x : fun2_like b f f' -> src2_like b A A' ->
  rel b (src2_like b) (x_scal2_l c f x A) (x_scal2_l c' f' x A').
Proof.
  intros Hf HA. unfold x_scal2_l. destruct HA as (H1 & H2 & HA). rewrite <- H1, <- H2.
  eapply rel_bind; [apply rel_x_const2|]. unfold src2_like in *. intros. apply rel_x_bin2; unfold src2_like; auto.
Qed.
Hint Resolve rel_x_scal_r rel_x_scal_l rel_x_scal2_r rel_x_scal2_l : cf.
Lemma rel_x_merge {V} (A A' B B' : src1 V) : src_like b A A' -> src_like b B B' -> rel b (src_like b) (x_merge c A B) (x_merge c' A' B').
Proof. intros. repeat src_split. unfold x_merge. cbn [ssize x_un]. cf. apply rel_x_gen. intros i. cbn. cf. Qed.
Lemma rel_x_merge_back {V} (A A' : src1 V) x : src_like b A A' -> rel b (src_like b) (x_merge_back c A x) (x_merge_back c' A' x).
Proof. intros. repeat src_split. unfold x_merge_back. cbn [ssize x_un]. cf. apply rel_x_gen. intros i. cbn. cf. Qed.
Lemma rel_x_merge_front {V} x (A A' : src1 V) : src_like b A A' -> rel b (src_like b) (x_merge_front c x A) (x_merge_front c' x A').
Proof. intros. repeat src_split. unfold x_merge_front. cbn [ssize x_un]. cf. apply rel_x_gen. intros i. cbn. cf. Qed.
Lemma rel_x_exclude {V} (A A' : src1 V) p k : src_like b A A' -> rel b (src_like b) (x_exclude c A p k) (x_exclude c' A' p k).
Proof. intros. repeat src_split. unfold x_exclude. cbn [ssize x_un]. cf. apply rel_x_gen. intros i. cbn. cf. Qed.
Hint Resolve rel_x_merge rel_x_merge_back rel_x_merge_front rel_x_exclude : cf.
Lemma rel_x_exclude_last {V} (A A' : src1 V) k : src_like b A A' -> rel b (src_like b) (x_exclude_last c A k) (x_exclude_last c' A' k).
Proof. intros H. unfold x_exclude_last. rewrite <- (proj1 H). cf. Qed.
Lemma rel_horizontal {V} (A A' B B' : src2 V) i : src2_like b A A' -> src2_like b B B' ->
  rel b eq (horizontal_op c A B i) (horizontal_op c' A' B' i).
Proof. intros. repeat src_split. unfold horizontal_op. cbn. cf. Qed.
Hint Resolve rel_horizontal : cf.
Lemma rel_x_mergeh {V} (A A' B B' : src2 V) : src2_like b A A' -> src2_like b B B' -> rel b (src2_like b) (x_mergeh c A B) (x_mergeh c' A' B').
Proof.
  intros HA HB. unfold x_mergeh. assert (HA' := HA). assert (HB' := HB).
  destruct HA' as (H1 & H2 & H3 & _), HB' as (G1 & G2 & G3 & _). cbn [s2size s2rows s2cols x_un2].
  rewrite <- H1, <- H2, <- H3, <- G1, <- G2, <- G3. cf. apply rel_x_gen2. intros i. apply rel_horizontal; auto with cf.
Qed.
Lemma rel_x_mergev {V} (A A' B B' : src2 V) : src2_like b A A' -> src2_like b B B' -> rel b (src2_like b) (x_mergev c A B) (x_mergev c' A' B').
Proof.
  intros HA HB. unfold x_mergev. repeat src_split. cbn [s2size s2rows s2cols x_un2]. cf. apply rel_x_gen2. intros i. cbn. cf.
Qed.
Hint Resolve rel_x_exclude_last rel_x_mergeh rel_x_mergev : cf.
Lemma rel_x_see1 {V} (rd rd' : Z -> outcome V) o : fun_like b rd rd' -> rel b (src_like b) (x_see1 c rd o) (x_see1 c' rd' o).
Proof. intros. repeat src_split. unfold x_see1. cf. smk. Qed.
Lemma rel_x_see2 {V} (rd rd' : Z -> outcome V) o : fun_like b rd rd' -> rel b (src2_like b) (x_see2 c rd o) (x_see2 c' rd' o).
Proof. intros. repeat src_split. unfold x_see2. cf. smk. Qed.
Hint Resolve rel_x_see1 rel_x_see2 : cf.
Lemma rel_x_row {V} (A A' : src2 V) i : src2_like b A A' -> rel b (src_like b) (x_row c A i) (x_row c' A' i).
Proof. intros. repeat src_split. unfold x_row, x_base2. cbn. cf. Qed.
Lemma rel_x_col {V} (A A' : src2 V) i : src2_like b A A' -> rel b (src_like b) (x_col c A i) (x_col c' A' i).
Proof. intros. repeat src_split. unfold x_col, x_base2. cbn. cf. Qed.
Lemma x_row_reduce_like {V W} (f f' : src1 V -> outcome W) A A' : red_like b f f' -> src2_like b A A' ->
  src_like b (x_row_reduce c f A) (x_row_reduce c' f' A').
Proof. intros Hf HA. split; [apply HA|]. intros i. cbn. eapply rel_bind; [apply rel_x_row, HA|exact Hf]. Qed.
Lemma x_col_reduce_like {V W} (f f' : src1 V -> outcome W) A A' : red_like b f f' -> src2_like b A A' ->
  src_like b (x_col_reduce c f A) (x_col_reduce c' f' A').
Proof. intros Hf HA. split; [apply HA|]. intros i. cbn. eapply rel_bind; [apply rel_x_col, HA|exact Hf]. Qed.
Lemma rel_x_broadcast {V} r (A A' : src1 V) : src_like b A A' -> rel b (src2_like b) (x_broadcast c r A) (x_broadcast c' r A').
Proof. intros. repeat src_split. unfold x_broadcast. cbn [ssize sun]. cf. smk. Qed.
Lemma rel_x_tensor {U V W} (f f' : U -> V -> outcome W) A A' B B' : fun2_like b f f' -> src_like b A A' -> src_like b B B' ->
  rel b (src2_like b) (x_tensor c f A B) (x_tensor c' f' A' B').
Proof. intros. repeat src_split. unfold x_tensor. cbn [ssize sun]. cf. smk. Qed.
Lemma rel_sub1_like {V} (A A' : src1 V) ix : src_like b A A' -> rel b eq (sub1 c A ix) (sub1 c' A' ix).
Proof. intros. repeat src_split. unfold sub1. cbn. cf. Qed.
Lemma rel_at1_like {V} (A A' : src1 V) ix : src_like b A A' -> rel b eq (at1 c A ix) (at1 c' A' ix).
Proof. intros. repeat src_split. unfold at1. cbn. cf. Qed.
Lemma rel_sub2_like {V} (A A' : src2 V) ix jx : src2_like b A A' -> rel b eq (sub2 c A ix jx) (sub2 c' A' ix jx).
Proof. intros. repeat src_split. unfold sub2. cbn [s2rows s2cols s2un]. cf. Qed.
Hint Resolve rel_sub1_like rel_at1_like rel_sub2_like : cf.
Lemma rel_x_dot {U V W} (z : W) add add' (mul mul' : U -> V -> outcome W) A A' B B' :
  fun2_like b add add' -> fun2_like b mul mul' -> src_like b A A' -> src_like b B B' ->
  rel b eq (x_dot c z add mul A B) (x_dot c' z add' mul' A' B').
Proof. intros Hadd Hmul HA HB. unfold x_dot. rewrite <- (proj1 HA). cf. Qed.
Lemma rel_x_matvec {U V W} (z : W) add add' (mul mul' : U -> V -> outcome W) A A' B B' :
  fun2_like b add add' -> fun2_like b mul mul' -> src2_like b A A' -> src_like b B B' ->
  rel b (src_like b) (x_matvec c z add mul A B) (x_matvec c' z add' mul' A' B').
Proof.
  intros Hadd Hmul HA HB. unfold x_matvec. rewrite <- (proj1 (proj2 HA)), <- (proj1 HB). cf. apply rel_ok.
  apply x_row_reduce_like; auto. intros R R' HR. apply rel_x_dot; auto.
Qed.
Lemma rel_x_eval1 {V} (z : V) A A' : src_like b A A' -> rel b eq (x_eval1 c z A) (x_eval1 c' z A').
Proof.
  intros HA. unfold x_eval1. rewrite <- (proj1 HA). cf. unfold arr_assign, arr_assign_rd, with_buf, assign_loop.
  rewrite <- (proj1 HA). cf. apply HA.
Qed.
Lemma rel_x_eval2 {V} (z : V) A A' : src2_like b A A' -> rel b eq (x_eval2 c z A) (x_eval2 c' z A').
Proof.
  intros HA. repeat src_split. unfold x_eval2. cbn. cf. unfold arr2_assign, arr2_assign_rd. cbn. cf.
Qed.
Lemma rel_x_eq1 {U V} (f f' : U -> V -> outcome bool) A A' B B' : fun2_like b f f' -> src_like b A A' -> src_like b B B' ->
  rel b eq (x_eq1 f A B) (x_eq1 f' A' B').
Proof.
  intros. repeat src_split. unfold x_eq1. cbn [ssize sun]. cf.
  match goal with |- context [Z.to_nat ?n] => generalize (Z.to_nat n) as k, 0 as i end.
  induction k; intros i; cbn [eq_loop]; cf.
Qed.
Hint Resolve x_row_reduce_like x_col_reduce_like rel_x_broadcast rel_x_tensor rel_x_dot rel_x_matvec rel_x_eval1 rel_x_eval2 rel_x_eq1 : cf.

Scheme alike1_mut := Minimality for alike1 Sort Prop
  with alike2_mut := Minimality for alike2 Sort Prop.
Combined Scheme alike_ind from alike1_mut, alike2_mut.
Lemma rel_build :
  (forall V (e e' : ex1 V), alike1 b V e e' -> rel b (src_like b) (build1 c e) (build1 c' e')) /\
  (forall V (e e' : ex2 V), alike2 b V e e' -> rel b (src2_like b) (build2 c e) (build2 c' e')).
Proof.
  apply alike_ind; intros; cbn [build1 build2];
    repeat match goal with IH : rel _ _ (build1 c ?e) (build1 c' ?e') |- rel _ _ (bind (build1 c ?e) _) _ =>
                             eapply rel_bind; [exact IH|intros ? ? ?]
                         | IH : rel _ _ (build2 c ?e) (build2 c' ?e') |- rel _ _ (bind (build2 c ?e) _) _ =>
                             eapply rel_bind; [exact IH|intros ? ? ?] end;
    try solve [auto with cf | apply rel_ok; auto with cf];
    repeat src_split; unfold x_base1, x_base2; cbn [ssize s2rows s2cols s2size]; cf.
Qed.

(** ** Reductions *)
Lemma rel_r_fold {V} (f f' : V -> V -> outcome V) A A' d : fun2_like b f f' -> src_like b A A' ->
  rel b eq (r_fold f A d) (r_fold f' A' d).
Proof. intros. repeat src_split. unfold r_fold. cbn [ssize sun]. cf. Qed.
Lemma rel_any_loop {V} (f f' : V -> outcome bool) A A' k : fun_like b f f' -> src_like b A A' ->
  forall i, rel b eq (any_loop k i f A) (any_loop k i f' A').
Proof. intros. repeat src_split. revert i. induction k; intros i; cbn; cf. Qed.
Lemma rel_all_loop {V} (f f' : V -> outcome bool) A A' k : fun_like b f f' -> src_like b A A' ->
  forall i, rel b eq (all_loop k i f A) (all_loop k i f' A').
Proof. intros. repeat src_split. revert i. induction k; intros i; cbn; cf. Qed.
Lemma rel_r_any {V} (f f' : V -> outcome bool) A A' d : fun_like b f f' -> src_like b A A' -> rel b eq (r_any f A d) (r_any f' A' d).
Proof. intros Hf HA. unfold r_any. rewrite <- (proj1 HA). cf. apply rel_any_loop; auto. Qed.
Lemma rel_r_all {V} (f f' : V -> outcome bool) A A' d : fun_like b f f' -> src_like b A A' -> rel b eq (r_all f A d) (r_all f' A' d).
Proof. intros Hf HA. unfold r_all. rewrite <- (proj1 HA). cf. apply rel_all_loop; auto. Qed.
Hint Resolve rel_r_fold rel_r_any rel_r_all : cf.
Lemma pair_src_like {U V} (A A' : src1 U) (B B' : src1 V) : src_like b A A' -> src_like b B B' -> src_like b (pair_src A B) (pair_src A' B').
Proof. intros. repeat src_split. split; cbn; [reflexivity|intros; cf]. Qed.
Lemma fun2_pair {U V W} (f f' : U -> V -> outcome W) : fun2_like b f f' ->
  fun_like b (fun p => f (fst p) (snd p)) (fun p => f' (fst p) (snd p)).
Proof. intros H p. apply H. Qed.
Hint Resolve pair_src_like fun2_pair : cf.
Lemma rel_r_any2 {U V} s (f f' : U -> V -> outcome bool) A A' B B' d : fun2_like b f f' -> src_like b A A' -> src_like b B B' ->
  rel b eq (r_any2 c s f A B d) (r_any2 c' s f' A' B' d).
Proof. intros. unfold r_any2. cf. Qed.
Lemma rel_r_all2 {U V} s (f f' : U -> V -> outcome bool) A A' B B' d : fun2_like b f f' -> src_like b A A' -> src_like b B B' ->
  rel b eq (r_all2 c s f A B d) (r_all2 c' s f' A' B' d).
Proof. intros. unfold r_all2. cf. Qed.
Hint Resolve rel_r_any2 rel_r_all2 : cf.
Lemma rel_r_none2 {U V} s (f f' : U -> V -> outcome bool) A A' B B' d : fun2_like b f f' -> src_like b A A' -> src_like b B B' ->
  rel b eq (r_none2 c s f A B d) (r_none2 c' s f' A' B' d).
Proof. intros Hf HA HB. unfold r_none2. rewrite <- (proj1 HA). cf. Qed.
Lemma rel_r_dot {V} add add' mul mul' (z : V) A A' B B' d : fun2_like b add add' -> fun2_like b mul mul' -> src_like b A A' ->
  src_like b B B' -> rel b eq (r_dot c add mul z A B d) (r_dot c' add' mul' z A' B' d).
Proof.
  intros H1 H2 HA HB. unfold r_dot, r_sum. rewrite <- (proj1 HA), <- (proj1 HB). apply rel_bind_eq; [cf|intros _]. cf_step; [cf|].
  eapply rel_bind; [apply rel_x_bin; eassumption|]. auto with cf.
Qed.
Lemma rel_r_dot2 {V} add add' mul mul' (z : V) A A' B B' d : fun2_like b add add' -> fun2_like b mul mul' -> src2_like b A A' ->
  src2_like b B B' -> rel b eq (r_dot2 c add mul z A B d) (r_dot2 c' add' mul' z A' B' d).
Proof.
  intros H1 H2 HA HB. unfold r_dot2, r_sum. assert (HA' := HA). assert (HB' := HB).
  destruct HA' as (E1 & E2 & E3 & _), HB' as (G1 & G2 & G3 & _). rewrite <- E1, <- E2, <- E3, <- G1, <- G2.
  apply rel_bind_eq; [cf|intros _]. cf_step; [cf|].
  eapply rel_bind; [apply rel_x_bin2; eassumption|]. intros P P' HP. apply rel_r_fold; auto.
  repeat src_split. split; cbn; auto.
Qed.
Hint Resolve rel_r_none2 rel_r_dot rel_r_dot2 : cf.
Lemma rel_r_norm2 {V} add add' mul mul' sq (z : V) A A' d : fun2_like b add add' -> fun2_like b mul mul' -> src_like b A A' ->
  rel b eq (r_norm2 c add mul sq z A d) (r_norm2 c' add' mul' sq z A' d).
Proof. intros H1 H2 HA. unfold r_norm2. rewrite <- (proj1 HA). cf. Qed.
Hint Resolve rel_r_norm2 : cf.
Lemma rel_r_norm2_scaled {V} add add' mul mul' div div' cast cast' sq (z : V) A A' d : fun2_like b add add' -> fun2_like b mul mul' ->
  fun2_like b div div' -> fun_like b cast cast' -> src_like b A A' ->
  rel b eq (r_norm2_scaled c add mul div cast sq z A d) (r_norm2_scaled c' add' mul' div' cast' sq z A' d).
Proof. intros H1 H2 H3 H4 HA. unfold r_norm2_scaled. rewrite <- (proj1 HA). cf. Qed.
Lemma rel_r_norm_lp {V} add add' div div' cast cast' (one : V) abs powi powi' pow (z : V) A A' lp d : fun2_like b add add' ->
  fun2_like b div div' -> fun_like b cast cast' -> fun2_like b powi powi' -> src_like b A A' ->
  rel b eq (r_norm_lp c add div cast one abs powi pow z A lp d) (r_norm_lp c' add' div' cast' one abs powi' pow z A' lp d).
Proof.
  intros H1 H2 H3 H4 HA. unfold r_norm_lp, r_sum. rewrite <- (proj1 HA). cf. apply rel_r_fold; auto.
  apply x_un_like; auto with cf. apply x_un_like; auto. intros y. apply H4.
Qed.
Lemma rel_r_poly {V} add add' mul mul' A A' (x d : V) : fun2_like b add add' -> fun2_like b mul mul' -> src_like b A A' ->
  rel b eq (r_poly c add mul A x d) (r_poly c' add' mul' A' x d).
Proof.
  intros H1 H2 HA. unfold r_poly. rewrite <- (proj1 HA). cf.
  repeat src_split. match goal with |- context [Z.to_nat ?n] => generalize (Z.to_nat n) as k end.
  intros k. match goal with |- rel b eq (horner_loop _ _ _ _ _ ?s) _ => generalize s end.
  induction k; intros s; cbn [horner_loop sun]; cf.
Qed.
Lemma rel_r_gpoly {V} add add' mul mul' pow pow' (z : V) A A' X X' P P' d : fun2_like b add add' -> fun2_like b mul mul' ->
  fun2_like b pow pow' -> src_like b A A' -> src_like b X X' -> src_like b P P' ->
  rel b eq (r_gpoly c add mul pow z A X P d) (r_gpoly c' add' mul' pow' z A' X' P' d).
Proof.
  intros H1 H2 H3 HA HX HP. unfold r_gpoly. rewrite <- (proj1 HA), <- (proj1 HX), <- (proj1 HP).
  cf; [apply HA|apply HX|apply HP].
Qed.
Lemma rel_r_poly_powers {V} add add' mul mul' pow pow' (z : V) A A' x P P' d : fun2_like b add add' -> fun2_like b mul mul' ->
  fun2_like b pow pow' -> src_like b A A' -> src_like b P P' ->
  rel b eq (r_poly_powers c add mul pow z A x P d) (r_poly_powers c' add' mul' pow' z A' x P' d).
Proof.
  intros H1 H2 H3 HA HP. unfold r_poly_powers. rewrite <- (proj1 HA), <- (proj1 HP).
  apply rel_bind_eq; [cf|intros _]. cf_step; [cf|]. apply rel_bind_eq; [cf|intros _].
  eapply rel_bind; [apply rel_x_const1|]. intros X X' HX. apply rel_r_gpoly; auto.
Qed.
Lemma rel_select {V} (f f' : V -> outcome bool) rd rd' k : fun_like b f f' -> fun_like b rd rd' ->
  forall i, rel b eq (select_loop k i f rd) (select_loop k i f' rd').
Proof. intros. repeat src_split. revert i. induction k; intros i; cbn [select_loop]; cf. Qed.
Lemma rel_r_in_cond {V} (f f' : V -> outcome bool) o l : fun_like b f f' -> rel b eq (r_in_cond c f o l) (r_in_cond c' f' o l).
Proof.
  intros Hf. unfold r_in_cond. apply rel_bind_eq; [cf|intros n]. eapply rel_bind; [apply rel_x_irange|].
  intros I I' HI. rewrite <- (proj1 HI). cf. apply rel_select; auto. intros i. apply rel_o_get.
Qed.
Hint Resolve rel_r_in_cond : cf.
Lemma rel_r_in_open {V} lt le (lo hi : V) o l : rel b eq (r_in_open c lt le lo hi o l) (r_in_open c' lt le lo hi o l).
Proof. unfold r_in_open. cf. Qed.
Lemma rel_r_in_closed {V} le (lo hi : V) o l : rel b eq (r_in_closed c le lo hi o l) (r_in_closed c' le lo hi o l).
Proof. unfold r_in_closed. cf. Qed.
Lemma relm_r_for_each {V} (f f' : V -> outcome V) o l : fun_like b f f' -> relm b eq (r_for_each c f o l) (r_for_each c' f' o l).
Proof. intros. unfold r_for_each. cf. Qed.

(** ** Compensated reductions *)
Section Stable.
Context {V : Type} (N : num V).
Lemma rel_pow_prods_tp tp x p : rel b eq (pow_prods_tp N c tp x p) (pow_prods_tp N c' tp x p).
Proof. unfold pow_prods_tp. cf. Qed.
Lemma rel_pow_prods x p : rel b eq (pow_prods N c x p) (pow_prods N c' x p).
Proof. apply rel_pow_prods_tp. Qed.
Lemma rel_stable_sum A A' d : src_like b A A' -> rel b eq (stable_sum N A d) (stable_sum N A' d).
Proof. intros. repeat src_split. unfold stable_sum. cbn [ssize sun]. cf. Qed.
Hint Resolve rel_pow_prods rel_stable_sum : cf.
Lemma rel_semi_stable_sum A A' d : src_like b A A' -> rel b eq (semi_stable_sum N c A d) (semi_stable_sum N c' A' d).
Proof. intros. repeat src_split. unfold semi_stable_sum. cbn [ssize sun]. cf. Qed.
Lemma rel_stable_prod A A' d : src_like b A A' -> rel b eq (stable_prod N c A d) (stable_prod N c' A' d).
Proof.
  intros. repeat src_split. unfold stable_prod. cbn [ssize sun].
  cf_step; [cf|]. do 4 (apply rel_bind_eq; [cf|intros ?]). cf_step. cf_step; [cf|].
  eapply rel_bind; [apply rel_x_irange|intros ? ? ?]. cf.
Qed.
Lemma rel_stable_dot s A A' B B' d : src_like b A A' -> src_like b B B' -> rel b eq (stable_dot N c s A B d) (stable_dot N c' s A' B' d).
Proof. intros. repeat src_split. unfold stable_dot. cbn [ssize sun]. cf. Qed.
Hint Resolve rel_semi_stable_sum rel_stable_prod rel_stable_dot : cf.
Lemma rel_stable_dot_prod A A' B B' d : src_like b A A' -> src_like b B B' -> rel b eq (stable_dot_prod N c A B d) (stable_dot_prod N c' A' B' d).
Proof. intros HA HB. unfold stable_dot_prod. rewrite <- (proj1 HA), <- (proj1 HB). cf. Qed.
Lemma rel_semi_stable_dot A A' B B' d : src_like b A A' -> src_like b B B' ->
  rel b eq (semi_stable_dot_prod N c A B d) (semi_stable_dot_prod N c' A' B' d).
Proof.
  intros HA HB. unfold semi_stable_dot_prod. rewrite <- (proj1 HA), <- (proj1 HB).
  apply rel_bind_eq; [cf|intros _]. cf_step; [cf|]. eapply rel_bind; [apply rel_x_bin; eauto with cf|]. auto with cf.
Qed.
Hint Resolve rel_stable_dot_prod : cf.
Lemma rel_stable_norm2 sq A A' d : src_like b A A' -> rel b eq (stable_norm2 N c sq A d) (stable_norm2 N c' sq A' d).
Proof. intros HA. unfold stable_norm2. rewrite <- (proj1 HA). cf. Qed.
Lemma rel_stable_gpolynomial A A' X X' P P' d : src_like b A A' -> src_like b X X' -> src_like b P P' ->
  rel b eq (stable_gpolynomial N c A X P d) (stable_gpolynomial N c' A' X' P' d).
Proof.
  intros HA HX HP. unfold stable_gpolynomial. rewrite <- (proj1 HA), <- (proj1 HX), <- (proj1 HP).
  apply rel_bind_eq; [cf|intros _]. cf_step; [cf|]. apply rel_bind_eq; [cf|intros _].
  eapply rel_bind; [apply rel_x_bin; [intros x p; cf|eassumption|eassumption]|intros R R' HR].
  eapply rel_bind; [apply rel_x_bin; [intros x p; cf|eassumption|eassumption]|intros S S' HS].
  eapply rel_bind; [apply rel_x_merge; eassumption|intros CP CP' HCP].
  eapply rel_bind; [apply rel_x_merge; eassumption|intros RS RS' HRS]. auto with cf.
Qed.
Lemma rel_stable_polynomial A A' x d : src_like b A A' -> rel b eq (stable_polynomial N c A x d) (stable_polynomial N c' A' x d).
Proof.
  intros HA. unfold stable_polynomial. rewrite <- (proj1 HA). cf_step; [cf|].
  eapply rel_bind; [apply rel_x_const1|intros X X' HX]. eapply rel_bind; [unfold x_seq_int; apply rel_x_seq; auto with cf|intros P P' HP].
  apply rel_stable_gpolynomial; auto.
Qed.
Lemma rel_stable_polynomial_powers A A' x P P' d : src_like b A A' -> src_like b P P' ->
  rel b eq (stable_polynomial_powers N c A x P d) (stable_polynomial_powers N c' A' x P' d).
Proof.
  intros HA HP. unfold stable_polynomial_powers. rewrite <- (proj1 HA), <- (proj1 HP).
  apply rel_bind_eq; [cf|intros _]. cf_step; [cf|]. apply rel_bind_eq; [cf|intros _].
  eapply rel_bind; [apply rel_x_const1|intros X X' HX]. apply rel_stable_gpolynomial; auto.
Qed.
Lemma rel_stable_norm_lp pow A A' lp d : src_like b A A' -> rel b eq (stable_norm_lp N c pow A lp d) (stable_norm_lp N c' pow A' lp d).
Proof.
  intros HA. unfold stable_norm_lp. rewrite <- (proj1 HA). apply rel_bind_eq; [cf|intros _]. cf_step; [cf|].
  eapply rel_bind; [apply rel_x_const1|intros C C' HC]. eapply rel_bind; [apply rel_x_const1|intros P P' HP].
  apply rel_bind_eq; [apply rel_stable_gpolynomial; auto; apply x_un_like; auto with cf|intros s; cf].
Qed.
Lemma rel_stable_norm_lp_scaled pow A A' lp d : src_like b A A' -> rel b eq (stable_norm_lp_scaled N c pow A lp d) (stable_norm_lp_scaled N c' pow A' lp d).
Proof.
  intros HA. unfold stable_norm_lp_scaled. rewrite <- (proj1 HA). apply rel_bind_eq; [cf|intros _]. cf_step; [cf|].
  apply rel_bind_eq; [apply rel_stable_norm_lp; auto|intros s; cf].
Qed.
Lemma rel_within_tol_abs x y t : rel b eq (within_tol_abs N c x y t) (within_tol_abs N c' x y t).
Proof. unfold within_tol_abs. cf. Qed.
Lemma rel_within_tol_rel x y t z : rel b eq (within_tol_rel N c x y t z) (within_tol_rel N c' x y t z).
Proof. unfold within_tol_rel. cf. Qed.
Lemma rel_within_tol_abs_arr A A' B B' t d : src_like b A A' -> src_like b B B' ->
  rel b eq (within_tol_abs_arr N c A B t d) (within_tol_abs_arr N c' A' B' t d).
Proof.
  intros HA HB. unfold within_tol_abs_arr. rewrite <- (proj1 HA), <- (proj1 HB). cf. apply rel_r_all2; auto.
  intros u y. apply rel_within_tol_abs.
Qed.
Lemma rel_within_tol_rel_arr A A' B B' t z d : src_like b A A' -> src_like b B B' ->
  rel b eq (within_tol_rel_arr N c A B t z d) (within_tol_rel_arr N c' A' B' t z d).
Proof.
  intros HA HB. unfold within_tol_rel_arr. rewrite <- (proj1 HA), <- (proj1 HB). cf. apply rel_r_all2; auto.
  intros u y. apply rel_within_tol_rel.
Qed.
Lemma rel_norm_inf A A' d : src_like b A A' -> rel b eq (norm_inf N A d) (norm_inf N A' d).
Proof. intros HA. unfold norm_inf, r_norm_inf, r_max. rewrite <- (proj1 HA). cf. Qed.
Lemma rel_max_abs_error A A' B B' d : src_like b A A' -> src_like b B B' -> rel b eq (max_abs_error N c A B d) (max_abs_error N c' A' B' d).
Proof.
  intros HA HB. unfold max_abs_error. rewrite <- (proj1 HA), <- (proj1 HB). apply rel_bind_eq; [cf|intros _]. cf_step; [cf|].
  eapply rel_bind; [apply rel_x_bin; eauto with cf|]. intros. apply rel_norm_inf; auto.
Qed.
Lemma rel_max_rel_error A A' B B' d : src_like b A A' -> src_like b B B' -> rel b eq (max_rel_error N c A B d) (max_rel_error N c' A' B' d).
Proof.
  intros HA HB. unfold max_rel_error. rewrite <- (proj1 HA), <- (proj1 HB). apply rel_bind_eq; [cf|intros _]. cf_step; [cf|].
  do 2 (apply rel_bind_eq; [cf|intros ?]). cf_step; [cf|].
  eapply rel_bind; [apply rel_x_bin; eauto with cf|intros D D' HD]. eapply rel_bind; [apply rel_x_bin; eauto with cf|intros Q Q' HQ].
  apply rel_bind_eq; [apply rel_norm_inf; auto|]. intros. cf.
Qed.
End Stable.

(** ** Semi-random numbers *)
Lemma rel_sg_generate p : rel b eq (sg_generate c p) (sg_generate c' p).
Proof. unfold sg_generate. cf. Qed.
Hint Resolve rel_sg_generate : cf.
Lemma rel_sg_random t l h p : rel b eq (sg_random c t l h p) (sg_random c' t l h p).
Proof. unfold sg_random. cf. Qed.
Lemma rel_sg_random_bool p : rel b eq (sg_random_bool c p) (sg_random_bool c' p).
Proof. unfold sg_random_bool. cf. Qed.
Lemma rel_sg_random_num {V} (N : num V) l h p : rel b eq (sg_random_num N c l h p) (sg_random_num N c' l h p).
Proof. unfold sg_random_num. cf. Qed.
Hint Resolve rel_sg_random rel_sg_random_bool rel_sg_random_num : cf.
Lemma rel_semi_rands t tm l h s : rel b eq (semi_rands c t tm l h s) (semi_rands c' t tm l h s).
Proof. unfold semi_rands. cf. Qed.
Lemma rel_semi_rands_num {V} (N : num V) tm l h s : rel b eq (semi_rands_num N c tm l h s) (semi_rands_num N c' tm l h s).
Proof. unfold semi_rands_num. cf. Qed.
Lemma rel_semi_random_fill t tm l h s A : rel b eq (semi_random_fill c t tm l h s A) (semi_random_fill c' t tm l h s A).
Proof. unfold semi_random_fill, sg_fill. cf. Qed.
Lemma rel_not0_loop rnd rnd' k : fun_like b rnd rnd' -> forall p, rel b eq (not0_loop rnd k p) (not0_loop rnd' k p).
Proof. intros H. unfold fun_like in H. induction k; intros p; cbn [not0_loop]; cf. Qed.
Hint Resolve rel_not0_loop : cf.
Lemma rel_not0_fill rnd rnd' f k : fun_like b rnd rnd' -> forall i l p, rel b eq (not0_fill rnd f k i l p) (not0_fill rnd' f k i l p).
Proof. intros H. induction k; intros i l p; cbn [not0_fill]; cf. Qed.
Lemma rel_semi_rands_not0 t f tm l h s : rel b eq (semi_rands_not0 c t f tm l h s) (semi_rands_not0 c' t f tm l h s).
Proof. unfold semi_rands_not0. cf. apply rel_not0_loop. intros p'. cf. Qed.
Lemma rel_semi_random_not0 t f tm l h s A : rel b eq (semi_random_not0 c t f tm l h s A) (semi_random_not0 c' t f tm l h s A).
Proof. unfold semi_random_not0. cf. apply rel_not0_fill. intros p'. cf. Qed.

(** ** Reading *)
Section IO.
Context {V : Type} (z : V).
Lemma rel_read_loop toks : forall tmp k, rel b eq (read_loop z c toks tmp k) (read_loop z c' toks tmp k).
Proof. induction toks; intros tmp k; cbn [read_loop]; cf. Qed.
Hint Resolve rel_read_loop : cf.
Lemma relm_read1 toks e A : relm b eq (read1 z c toks e A) (read1 z c' toks e A).
Proof. unfold read1. cf. Qed.
Lemma rel_first_loop toks : forall A k, rel b eq (first_loop z c toks A k) (first_loop z c' toks A k).
Proof. induction toks; intros A k; cbn [first_loop]; cf. Qed.
Lemma rel_row_loop r toks : forall (A : arr2 V) k, rel b eq (row_loop c r toks A k) (row_loop c' r toks A k).
Proof. induction toks; intros A k; cbn [row_loop]; cf. Qed.
Hint Resolve rel_first_loop rel_row_loop : cf.
Lemma rel_get_first_row toks e A : rel b eq (get_first_row z c toks e A) (get_first_row z c' toks e A).
Proof. unfold get_first_row. cf. Qed.
Lemma rel_get_row toks e r (A : arr2 V) : rel b eq (get_row c toks e r A) (get_row c' toks e r A).
Proof. unfold get_row. cf. Qed.
Hint Resolve rel_get_first_row rel_get_row : cf.
Lemma rel_first_rows L : forall A, rel b eq (first_rows z c L A) (first_rows z c' L A).
Proof. induction L; intros A; cbn [first_rows]; cf. Qed.
Lemma rel_next_rows n L : forall A k, rel b eq (next_rows z c n L A k) (next_rows z c' n L A k).
Proof. induction L; intros A k; cbn [next_rows]; cf. Qed.
Hint Resolve rel_first_rows rel_next_rows : cf.
Lemma relm_read2 L A : relm b eq (read2 z c L A) (read2 z c' L A).
Proof. unfold read2. cf. Qed.
End IO.
Lemma relm_read1_text t s A : relm b eq (read1_text c t s A) (read1_text c' t s A).
Proof. unfold read1_text. apply relm_read1. Qed.
Lemma relm_read2_text t s A : relm b eq (read2_text c t s A) (read2_text c' t s A).
Proof. unfold read2_text. apply relm_read2. Qed.

(** ** Programs on owning arrays *)
Section Moves.
Hypothesis (Fc : full c = true) (Fb : b = true -> full c' = true).
Lemma rel_check_normal x : rel b eq (check_normal c (Ok x)) (check_normal c' (Ok x)).
Proof.
  clear Ha Hc Hb. unfold full in *. unfold check_normal. destruct x; cbn; [destruct (dbg c), (dbg c'); cbn; reflexivity|].
  destruct (dbg c), (ndbg c); try discriminate Fc. cbn.
  destruct b; [specialize (Fb eq_refl)|clear Fb; destruct (dbg c'), (ndbg c'); cbn; auto].
  destruct (dbg c'), (ndbg c'); try discriminate Fb. cbn. apply same_fail_refl.
Qed.
Hint Resolve rel_check_normal : cf.
Lemma rel_arr_move_assign {V} (a s : arr V) : rel b eq (arr_move_assign c a s) (arr_move_assign c' a s).
Proof. unfold arr_move_assign. cf. Qed.
Hint Resolve rel_arr_move_assign : cf.
Lemma rel_arr2_move_assign {V} (a s : arr2 V) : rel b eq (arr2_move_assign c a s) (arr2_move_assign c' a s).
Proof. unfold arr2_move_assign. cf. Qed.
Hint Resolve rel_arr2_move_assign : cf.
Lemma rel_arr2_assign_list {V} (z : V) L a : rel b eq (arr2_assign_list z c L a) (arr2_assign_list z c' L a).
Proof. unfold arr2_assign_list. cf. Qed.
Hint Resolve rel_arr2_assign_list : cf.

Lemma res_refl {S V} (r : res S V) : res_like b r r.
Proof. destruct r as [s []|]; cbn; auto. destruct b; auto using same_fail_refl. Qed.
Lemma res_push {X V} (st : list X) m m' : rel b eq m m' -> res_like b (push (V := V) st m) (push st m').
Proof. destruct m, m'; cbn; auto; try contradiction; intros; subst; auto. destruct b; auto. Qed.
Lemma res_put {X V} (st : list X) i m m' : rel b eq m m' -> res_like b (put (V := V) st i m) (put st i m').
Proof. destruct m, m'; cbn; auto; try contradiction; intros; subst; auto. destruct b; auto. Qed.
Lemma res_put_mut {X V} (st : list X) i m m' : relm b eq m m' -> res_like b (put_mut (V := V) st i m) (put_mut st i m').
Proof. destruct m, m'; cbn; auto; try contradiction; intros H; subst; auto. destruct b; auto. destruct H. subst. auto. Qed.
Lemma res_seen {X V A} (st : list X) (g : A -> obs V) m m' : (forall x, match g x with Failed _ => False | _ => True end) ->
  rel b eq m m' -> res_like b (seen st g m) (seen st g m').
Proof.
  intros Hg. destruct m as [x|f|], m' as [x'|f'|]; cbn; auto; try contradiction; intros H; subst; auto.
  all: try (specialize (Hg x'); destruct (g x'); auto; contradiction).
  destruct b; auto.
Qed.
Lemma res_with1 {X V} (st : list X) i (k k' : X -> res (list X) V) : (forall a, res_like b (k a) (k' a)) -> res_like b (with1 st i k) (with1 st i k').
Proof. intros H. unfold with1. destruct (znth st i); [auto|apply res_refl]. Qed.
Lemma res_pair {X V S} (st : S) (m m' : outcome (X * X)) (g : X * X -> S) : rel b eq m m' ->
  res_like b (match m with Ok p => Next (V := V) (g p) Done | Fail f => Next st (Failed f) | UB => Crash end)
             (match m' with Ok p => Next (g p) Done | Fail f => Next st (Failed f) | UB => Crash end).
Proof. destruct m, m'; cbn; auto; try contradiction; intros; subst; auto. destruct b; auto. Qed.
Ltac stepcf :=
  repeat first
    [ apply res_with1; intros ?
    | apply res_refl
    | apply res_push; solve [cf]
    | apply res_put; solve [cf]
    | apply res_put_mut; solve [cf]
    | apply res_seen; [intros ?; exact I|solve [cf]]
    | match goal with |- res_like _ (if ?x then _ else _) (if ?x then _ else _) => destruct x end
    | match goal with |- res_like _ (let (_, _) := ?x in _) (let (_, _) := ?x in _) => destruct x end ].
Lemma step1_like {V} (z : V) st o : res_like b (step1 z c st o) (step1 z c' st o).
Proof.
  destruct o; cbn [step1]; unfold with2, arr_of_list, arr_assign_list, arr_assign_arr, arr_assign, arr_resize_and_assign,
    arr_remove_front, arr_insert_front, arr_insert_back, arr_insert_front_arr, arr_insert_back_arr; stepcf.
  pose proof (rel_arr_move_assign a a0) as H. destruct (arr_move_assign c a a0) as [[]|f|], (arr_move_assign c' a a0) as [[]|f'|];
    cbn in *; auto; try contradiction; [inversion H; subst; reflexivity|destruct b; auto].
Qed.
Lemma step2_like {V} (z : V) st o : res_like b (step2 z c st o) (step2 z c' st o).
Proof.
  destruct o; cbn [step2]; unfold with2, arr2_resize_and_assign_arr, arr2_resize_and_assign, arr2_remove_row, arr2_remove_col,
    arr2_remove_rows_front, arr2_remove_cols_front, arr2_insert_rows_arr, arr2_insert_cols_arr; stepcf.
  pose proof (rel_arr2_move_assign a a0) as H. destruct (arr2_move_assign c a a0) as [[]|f|], (arr2_move_assign c' a a0) as [[]|f'|];
    cbn in *; auto; try contradiction; [inversion H; subst; reflexivity|destruct b; auto].
Qed.
End Moves.

End Checked.
