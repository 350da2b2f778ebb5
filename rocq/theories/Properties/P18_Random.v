(** Property C64: random numbers and arrays (Util/random.hpp). *)
From Coq Require Import ZArith Lia List.
From Flocq Require Import Core BinarySingleNaN.
From Verif Require Import Base.Outcome Base.ZList Model.IntModel Model.ScalarOps Model.Index Model.Slice Model.Array1D Model.Array2D Model.View2D Model.Expr Model.SortModel Model.Random.
From Verif Require Import Spec.ArraySpec Spec.SliceSpec Spec.View2DSpec Spec.SortSpec Spec.FloatSpec Spec.RandomSpec Spec.Configs.
From Verif Require Import Proofs.RandomProofs Proofs.RandomMore Proofs.SortProofs Properties.P16_Sort.
Import ListNotations.
Open Scope Z_scope.

(** A generator to show that the assumptions can be met: a linear congruential one. *)
Definition lcg (low high s : Z) : Z * Z := let s' := (s * 75 + 74) mod 65537 in (low + s' mod (high - low + 1), s').
Lemma lcg_ok : in_bounds Z.leb pre_int lcg.
Proof. intros low high s H. unfold pre_int in H. unfold lcg. cbn [fst]. pose proof (Z.mod_pos_bound ((s * 75 + 74) mod 65537) (high - low + 1)). lia. Qed.

(** rands: the first number drawn, between the bounds. *)
Theorem C64_rands : forall (V St : Type) (leb pre : V -> V -> bool) (draw : V -> V -> St -> V * St) c low high s,
  in_bounds leb pre draw -> pre low high = true -> leb low high = true ->
  exists v, rands leb pre draw c low high s = Ok v /\ v = nth_draw draw low high 0 s /\ between leb low high v.
Proof. intros V St leb pre draw c low high s HD HP HL. eexists. split; [now apply rands_thm|]. split; [reflexivity|]. now apply HD. Qed.
Print Assumptions C64_rands.
Theorem C64_rands_reported : forall (V St : Type) (leb pre : V -> V -> bool) (draw : V -> V -> St -> V * St) c low high s,
  checked c = true -> leb low high = false -> rands leb pre draw c low high s = Fail (report c).
Proof. exact @rands_bad_thm. Qed.
Print Assumptions C64_rands_reported.
Theorem C64_rands_undefined : forall (V St : Type) (leb pre : V -> V -> bool) (draw : V -> V -> St -> V * St) c low high s,
  pre low high = false -> checked c = false \/ leb low high = true -> rands leb pre draw c low high s = UB.
Proof. exact @rands_ub_thm. Qed.
Print Assumptions C64_rands_undefined.
Example C64_rands_case : in_bounds Z.leb pre_int lcg /\ rands Z.leb pre_int lcg c_dbg (-5) 5 7 = Ok 0 /\ rands Z.leb pre_int lcg c_dbg 5 (-5) 7 = Fail (report c_dbg) /\
  rands Z.leb pre_int lcg c_off 5 (-5) 7 = UB.
Proof. split; [apply lcg_ok|]. repeat split; vm_compute; reflexivity. Qed.

(** The check low <= high does not suffice for floating-point numbers: the difference of the bounds may overflow. *)
Theorem C64_span_refuted : exists low high : double, is_finite low = true /\ is_finite high = true /\ Bleb low high = true /\
  forall (St : Type) (draw : double -> double -> St -> double * St) c s, rands Bleb pre_real draw c low high s = UB.
Proof.
  exists (dbl (-1) 1023), (dbl 1 1023). split; [vm_compute; reflexivity|]. split; [vm_compute; reflexivity|]. split; [vm_compute; reflexivity|].
  intros St draw c s. apply rands_ub_thm; [vm_compute; reflexivity|right; vm_compute; reflexivity].
Qed.
Print Assumptions C64_span_refuted.

(** Quadruple precision draws doubles between the rounded bounds: the number may lie outside the bounds given. *)
Theorem C64_quad_refuted : exists low high : quad, Bleb low high = true /\
  forall (St : Type) (draw : double -> double -> St -> double * St) c s, in_bounds Bleb pre_real draw ->
  exists v, rands Bleb (pre_quad (convert 53 1024) pre_real) (draw_quad (convert 53 1024) (convert 113 16384) draw) c low high s = Ok v /\ Bltb v low = true.
Proof. exists (qd 1152921504606846977 (-60)), (qd 1152921504606846977 (-60)). split; [vm_compute; reflexivity|]. intros St draw c s. apply quad_out. Qed.
Print Assumptions C64_quad_refuted.
Example C64_quad_case : in_bounds Bleb pre_real (fun (low high : double) (s : unit) => (low, s)).
Proof. intros low high s H. unfold pre_real in H. apply andb_prop in H as [H _]. cbn [fst]. split; [|exact H]. destruct low as [s1|s1| |s1 m1 e1 H1]; unfold Bleb, SpecFloat.SFleb in *; cbn in *; try destruct s1; try reflexivity; try discriminate; rewrite ?Z.compare_refl, ?Pos.compare_refl, ?Pos.compare_cont_refl; reflexivity. Qed.

(** Without arguments the bounds are 0 and 1. *)
Theorem C64_default_bounds : forall (St : Type) (draw : Z -> Z -> St -> Z * St) c s, in_bounds Z.leb pre_int draw -> rands01 draw c s = Ok (fst (draw 0 1 s)) /\ 0 <= fst (draw 0 1 s) <= 1.
Proof. intros St draw c s HD. split; [exact (rands_thm Z.leb pre_int draw c 0 1 s eq_refl eq_refl)|]. destruct (HD 0 1 s eq_refl) as [A B]. apply Z.leb_le in A, B. now split. Qed.
Print Assumptions C64_default_bounds.
(** bool: false or true, according to a number from 0 to 1. *)
Theorem C64_bool : forall (St : Type) (draw : Z -> Z -> St -> Z * St) c s, in_bounds Z.leb pre_int draw -> rands_bool draw c s = Ok (fst (draw 0 1 s) =? 1).
Proof. intros St draw c s. apply bool_thm. Qed.
Print Assumptions C64_bool.
Example C64_bool_case : rands_bool lcg c_dbg 1 = Ok true /\ rands_bool lcg c_dbg 2 = Ok false.
Proof. split; vm_compute; reflexivity. Qed.

(** random(A, low, high): all elements of the view lie between the bounds, nothing else changes; if no element is named twice they
    are the numbers drawn, in order. *)
Theorem C64_fill : forall (V St : Type) (leb pre : V -> V -> bool) (draw : V -> V -> St -> V * St) c N o (b : list V) low high s n,
  is_view c N o -> zlen b = N -> in_bounds leb pre draw -> pre low high = true -> leb low high = true -> o_size o = Ok n ->
  exists b', random_fill leb pre draw c o low high s b = Ok b' /\ zlen b' = N /\
    (forall i, 0 <= i < n -> exists v, o_get c o b' i = Ok v /\ between leb low high v) /\
    (forall q, (forall i, 0 <= i < n -> o_lin c o i <> Ok q) -> znth b' q = znth b q) /\
    (separate c o -> holds c o b' (first_draws draw low high (Z.to_nat n) s)).
Proof. intros V St leb pre draw c N o b low high s n HV HB. exact (RandomProofs.fill_thm leb pre draw c N o b HV HB low high s n). Qed.
Print Assumptions C64_fill.
Theorem C64_fill_reported : forall (V St : Type) (leb pre : V -> V -> bool) (draw : V -> V -> St -> V * St) c o (b : list V) low high s,
  checked c = true -> leb low high = false -> random_fill leb pre draw c o low high s b = Fail (report c).
Proof. exact @RandomProofs.fill_bad_thm. Qed.
Print Assumptions C64_fill_reported.
Theorem C64_fill_undefined : forall (V St : Type) (leb pre : V -> V -> bool) (draw : V -> V -> St -> V * St) c o (b : list V) low high s,
  pre low high = false -> checked c = false \/ leb low high = true -> random_fill leb pre draw c o low high s b = UB.
Proof. exact @RandomProofs.fill_ub_thm. Qed.
Print Assumptions C64_fill_undefined.
Theorem C64_fills : forall (V St : Type) (leb pre : V -> V -> bool) (draw : V -> V -> St -> V * St) c low high (As : list (obj * St * list V)),
  in_bounds leb pre draw -> pre low high = true -> leb low high = true -> Forall (fun A => is_view c (zlen (snd A)) (fst (fst A))) As ->
  exists bs, random_fills leb pre draw c As low high = Ok bs /\
    Forall2 (fun A b' => random_fill leb pre draw c (fst (fst A)) low high (snd (fst A)) (snd A) = Ok b') As bs.
Proof. exact @RandomProofs.fills_thm. Qed.
Print Assumptions C64_fills.
Definition evens := OS1 (O1 6) (RSeq (mkseqn 0 3 2)).
Example C64_fill_case : is_view c_dbg 6 evens /\ separate c_dbg evens /\ o_size evens = Ok 3 /\
  random_fill Z.leb pre_int lcg c_dbg evens 10 19 7 [1; 2; 3; 4; 5; 6] = Ok [19; 2; 19; 4; 12; 6] /\
  random_fills Z.leb pre_int lcg c_dbg [(evens, 7, [1; 2; 3; 4; 5; 6]); (evens, 8, [0; 0; 0; 0; 0; 0])] 10 19 = Ok [[19; 2; 19; 4; 12; 6]; [14; 0; 14; 0; 15; 0]] /\
  random_fill Z.leb pre_int lcg c_dbg evens 19 10 7 [1; 2; 3; 4; 5; 6] = Fail (report c_dbg).
Proof. split; [apply even_view|]. split; [apply even_separate|]. repeat split; vm_compute; reflexivity. Qed.

(** rands_not0: the first number drawn that is not zero; no value so long as only zeros have been drawn. *)
Theorem C64_not0 : forall (V St : Type) (leb : V -> V -> bool) (is0 : V -> bool) (pre : V -> V -> bool) (draw : V -> V -> St -> V * St) c fuel low high s,
  pre low high = true -> leb low high = true -> is0 low && is0 high = false ->
  exists r, rands_not0 leb is0 pre draw c fuel low high s = Ok r /\
    (forall v, r = Some v <-> exists k, (k < fuel)%nat /\ v = nth_draw draw low high k s /\ is0 v = false /\ forall j, (j < k)%nat -> is0 (nth_draw draw low high j s) = true).
Proof. exact @rands_not0_thm. Qed.
Print Assumptions C64_not0.
Theorem C64_not0_reported : forall (V St : Type) (leb : V -> V -> bool) (is0 : V -> bool) (pre : V -> V -> bool) (draw : V -> V -> St -> V * St) c fuel low high s,
  checked c = true -> leb low high = false \/ is0 low && is0 high = true -> rands_not0 leb is0 pre draw c fuel low high s = Fail (report c).
Proof. exact @rands_not0_bad_thm. Qed.
Print Assumptions C64_not0_reported.
(** Without the checks rands_not0(0, 0) never returns. *)
Theorem C64_not0_hangs : forall (St : Type) (draw : Z -> Z -> St -> Z * St) c fuel s, in_bounds Z.leb pre_int draw -> checked c = false ->
  rands_not0 Z.leb (Z.eqb 0) pre_int draw c fuel 0 0 s = Ok None.
Proof. intros St draw c fuel s HD HC. apply rands_not0_hang_thm; [assumption|reflexivity|]. intros k. destruct (HD 0 0 (state_after draw 0 0 k s) eq_refl) as [H1 H2]. unfold nth_draw. lia. Qed.
Print Assumptions C64_not0_hangs.
Theorem C64_not0_fill : forall (V St : Type) (leb : V -> V -> bool) (is0 : V -> bool) (pre : V -> V -> bool) (draw : V -> V -> St -> V * St) c N o (b : list V) fuel low high s n,
  is_view c N o -> zlen b = N -> in_bounds leb pre draw -> pre low high = true -> leb low high = true -> is0 low && is0 high = false -> o_size o = Ok n ->
  exists r, random_not0_fill leb is0 pre draw c fuel o low high s b = Ok r /\
    (forall b', r = Some b' -> zlen b' = N /\
      (forall i, 0 <= i < n -> exists v, o_get c o b' i = Ok v /\ between leb low high v /\ is0 v = false) /\
      (forall q, (forall i, 0 <= i < n -> o_lin c o i <> Ok q) -> znth b' q = znth b q)).
Proof. intros. eapply not0_fill_thm; eassumption. Qed.
Print Assumptions C64_not0_fill.
(** random_not0 returns if numbers other than zero keep coming. *)
Theorem C64_not0_fill_ends : forall (V St : Type) (leb : V -> V -> bool) (is0 : V -> bool) (pre : V -> V -> bool) (draw : V -> V -> St -> V * St) c N o (b : list V) low high s,
  is_view c N o -> zlen b = N -> pre low high = true -> leb low high = true -> is0 low && is0 high = false ->
  (forall k, exists j, (k <= j)%nat /\ is0 (nth_draw draw low high j s) = false) ->
  exists fuel b', random_not0_fill leb is0 pre draw c fuel o low high s b = Ok (Some b').
Proof. intros. eapply not0_fill_ends_thm; eassumption. Qed.
Print Assumptions C64_not0_fill_ends.
Theorem C64_not0_fill_reported : forall (V St : Type) (leb : V -> V -> bool) (is0 : V -> bool) (pre : V -> V -> bool) (draw : V -> V -> St -> V * St) c o (b : list V) fuel low high s,
  checked c = true -> leb low high = false \/ is0 low && is0 high = true -> random_not0_fill leb is0 pre draw c fuel o low high s b = Fail (report c).
Proof. intros. now apply not0_fill_bad_thm. Qed.
Print Assumptions C64_not0_fill_reported.
Example C64_not0_case : rands_not0 Z.leb (Z.eqb 0) pre_int lcg c_dbg 1 0 1 2 = Ok None /\ rands_not0 Z.leb (Z.eqb 0) pre_int lcg c_dbg 9 0 1 2 = Ok (Some 1) /\
  rands_not0 Z.leb (Z.eqb 0) pre_int lcg c_dbg 9 0 0 2 = Fail (report c_dbg) /\
  random_not0_fill Z.leb (Z.eqb 0) pre_int lcg c_dbg 9 evens (-1) 1 7 [9; 9; 9; 9; 9; 9] = Ok (Some [1; 9; 1; 9; 1; 9]) /\
  (forall k, exists j, (k <= j)%nat /\ Z.eqb 0 (nth_draw (fun low high (s : unit) => (low, s)) 3 5 j tt) = false).
Proof. repeat split; try (vm_compute; reflexivity). intros k. exists k. split; [lia|reflexivity]. Qed.

(** The expressions random(n, low, high) and random(m, n, low, high). *)
Theorem C64_expr : forall (V St : Type) (leb pre : V -> V -> bool) c n low high (s : St),
  pre low high = true -> leb low high = true -> 0 <= n -> random_expr leb pre c n low high s = Ok (n, s).
Proof. exact @expr_thm. Qed.
Print Assumptions C64_expr.
Theorem C64_expr_reported : forall (V St : Type) (leb pre : V -> V -> bool) c n low high (s : St),
  checked c = true -> (pre low high = true /\ n < 0) \/ leb low high = false -> random_expr leb pre c n low high s = Fail (report c).
Proof. exact @expr_bad_thm. Qed.
Print Assumptions C64_expr_reported.
Theorem C64_expr2 : forall (V St : Type) (leb pre : V -> V -> bool) c m n low high (s : St),
  pre low high = true -> leb low high = true -> 0 <= m -> 0 <= n -> (m = 0 <-> n = 0) -> m * n <= LONG_MAX -> random_expr2 leb pre c m n low high s = Ok (m, n, m * n, s).
Proof. exact @expr2_thm. Qed.
Print Assumptions C64_expr2.
Theorem C64_expr2_reported : forall (V St : Type) (leb pre : V -> V -> bool) c m n low high (s : St), checked c = true ->
  (pre low high = true /\ (m < 0 \/ n < 0 \/ (m = 0 /\ n <> 0) \/ (m <> 0 /\ n = 0))) \/ leb low high = false -> random_expr2 leb pre c m n low high s = Fail (report c).
Proof. exact @expr2_bad_thm. Qed.
Print Assumptions C64_expr2_reported.
(** Evaluating draws as many numbers as there are elements; an expression evaluated again goes on from there. *)
Theorem C64_eval : forall (V St : Type) (draw : V -> V -> St -> V * St) E low high,
  eval_expr draw E low high = (first_draws draw low high (Z.to_nat (fst E)) (snd E), state_after draw low high (Z.to_nat (fst E)) (snd E)).
Proof. exact @eval_thm. Qed.
Print Assumptions C64_eval.
(** An expression used twice in one expression gives the same numbers twice: E - E is zero, E * E are squares. *)
Theorem C64_copies : forall (V St : Type) (draw : V -> V -> St -> V * St) (f : V -> V -> V) E low high,
  eval_self draw f E low high = map (fun v => f v v) (first_draws draw low high (Z.to_nat (fst E)) (snd E)).
Proof. exact @eval_self_thm. Qed.
Print Assumptions C64_copies.
Example C64_expr_case : random_expr Z.leb pre_int c_dbg 4 10 19 7 = Ok (4, 7) /\ random_expr Z.leb pre_int c_dbg (-1) 10 19 7 = Fail (report c_dbg) /\
  random_expr2 Z.leb pre_int c_dbg 2 3 10 19 7 = Ok (2, 3, 6, 7) /\ random_expr2 Z.leb pre_int c_dbg 0 3 10 19 7 = Fail (report c_dbg) /\
  fst (eval_expr lcg (4, 7) 10 19) = [19; 19; 12; 15] /\ eval_self lcg Z.sub (4, 7) 10 19 = [0; 0; 0; 0] /\ eval_self lcg Z.mul (2, 7) 10 19 = [361; 361].
Proof. repeat split; vm_compute; reflexivity. Qed.

(** ** random_not0: several arrays, and expressions *)
(** Each array as if it were the only one. *)
Theorem C64_not0_fills : forall (V St : Type) (leb : V -> V -> bool) (is0 : V -> bool) (pre : V -> V -> bool) (draw : V -> V -> St -> V * St) c fuel low high (As : list (obj * St * list V)),
  in_bounds leb pre draw -> pre low high = true -> leb low high = true -> is0 low && is0 high = false -> Forall (fun A => is_view c (zlen (snd A)) (fst (fst A))) As ->
  exists r, random_not0_fills leb is0 pre draw c fuel As low high = Ok r /\
    match r with
    | Some bs => Forall2 (fun A b' => random_not0_fill leb is0 pre draw c fuel (fst (fst A)) low high (snd (fst A)) (snd A) = Ok (Some b')) As bs
    | None => Exists (fun A => random_not0_fill leb is0 pre draw c fuel (fst (fst A)) low high (snd (fst A)) (snd A) = Ok None) As
    end.
Proof. intros V St leb is0 pre draw c fuel low high As. exact (not0_fills_thm leb is0 pre draw c fuel low high As). Qed.
Print Assumptions C64_not0_fills.
Theorem C64_not0_expr : forall (V St : Type) (leb : V -> V -> bool) (is0 : V -> bool) (pre : V -> V -> bool) c m n low high (s : St),
  pre low high = true -> leb low high = true -> is0 low && is0 high = false -> 0 <= n ->
  random_not0_expr leb is0 pre c n low high s = Ok (n, s) /\
  (0 <= m -> (m = 0 <-> n = 0) -> m * n <= LONG_MAX -> random_not0_expr2 leb is0 pre c m n low high s = Ok (m, n, m * n, s)).
Proof. intros V St leb is0 pre c m n low high s HP HL H0 Hn. split; [now apply not0_expr_thm|]. intros Hm Hz Hs. now apply not0_expr2_thm. Qed.
Print Assumptions C64_not0_expr.
Theorem C64_not0_expr_reported : forall (V St : Type) (leb : V -> V -> bool) (is0 : V -> bool) (pre : V -> V -> bool) c m n low high (s : St), checked c = true ->
  (leb low high = false \/ is0 low && is0 high = true \/ (pre low high = true /\ n < 0) -> random_not0_expr leb is0 pre c n low high s = Fail (report c)) /\
  (leb low high = false \/ is0 low && is0 high = true \/ (pre low high = true /\ (m < 0 \/ n < 0 \/ (m = 0 /\ n <> 0) \/ (m <> 0 /\ n = 0))) ->
   random_not0_expr2 leb is0 pre c m n low high s = Fail (report c)).
Proof. intros V St leb is0 pre c m n low high s HC. split; intros H; [now apply not0_expr_bad_thm|now apply not0_expr2_bad_thm]. Qed.
Print Assumptions C64_not0_expr_reported.
(** The elements are the numbers drawn, without the zeros; if a read is still running, that many zeros have come in a row. *)
Theorem C64_not0_eval : forall (V St : Type) (is0 : V -> bool) (draw : V -> V -> St -> V * St) fuel E low high,
  match eval_not0_expr is0 draw fuel E low high with
  | Some (vs, s') => zlen vs = Z.max 0 (fst E) /\ exists k, vs = filter (fun v => negb (is0 v)) (first_draws draw low high k (snd E)) /\ s' = state_after draw low high k (snd E)
  | None => exists k, forall j, (j < fuel)%nat -> is0 (nth_draw draw low high (k + j) (snd E)) = true
  end.
Proof. intros V St is0 draw. exact (not0_eval_thm (fun _ _ => true) is0 (fun _ _ => true) draw). Qed.
Print Assumptions C64_not0_eval.
Theorem C64_not0_eval_ends : forall (V St : Type) (is0 : V -> bool) (draw : V -> V -> St -> V * St) E low high,
  (forall k, exists j, (k <= j)%nat /\ is0 (nth_draw draw low high j (snd E)) = false) -> exists fuel vs s', eval_not0_expr is0 draw fuel E low high = Some (vs, s').
Proof. intros V St is0 draw. exact (not0_eval_ends_thm (fun _ _ => true) is0 (fun _ _ => true) draw). Qed.
Print Assumptions C64_not0_eval_ends.
Example C64_not0_expr_case : random_not0_expr Z.leb (Z.eqb 0) pre_int c_dbg 4 (-1) 1 7 = Ok (4, 7) /\ random_not0_expr Z.leb (Z.eqb 0) pre_int c_dbg 4 0 0 7 = Fail (report c_dbg) /\
  random_not0_expr2 Z.leb (Z.eqb 0) pre_int c_dbg 2 3 (-1) 1 7 = Ok (2, 3, 6, 7) /\ first_draws lcg (-1) 1 9 7 = [1; 1; 1; -1; 1; 0; 0; -1; -1] /\ option_map fst (eval_not0_expr (Z.eqb 0) lcg 9 (6, 7) (-1) 1) = Some [1; 1; 1; -1; 1; -1] /\ eval_not0_expr (Z.eqb 0) lcg 2 (6, 7) (-1) 1 = None /\
  random_not0_fills Z.leb (Z.eqb 0) pre_int lcg c_dbg 9 [(evens, 7, [9; 9; 9; 9; 9; 9]); (evens, 8, [8; 8; 8; 8; 8; 8])] (-1) 1 = Ok (Some [[1; 9; 1; 9; 1; 9]; [1; 8; 1; 8; 1; 8]]).
Proof. repeat split; vm_compute; reflexivity. Qed.
