(** C94: timers. *)
From Coq Require Import ZArith Reals Lra Lia List.
From Flocq Require Import Core BinarySingleNaN.
From Verif Require Import Base.Outcome Model.Scalars Model.Timer Spec.TimerSpec Proofs.TimerProofs.
Import ListNotations.
Local Open Scope R_scope.

Definition begin : tstate := mkts 0 [] [].
(** wall_time() of a timer is the time since its last restart(), whatever else the program does with this and other timers in between. *)
Theorem C94_restart : forall clk before after k s, run clk (before ++ Restart k :: after ++ [Wall k]) begin = Ok s -> ~ In (Restart k) after ->
  exists out d, shown s = out ++ [seconds d] /\ fits64 d /\ d = (clk (S (reads before + reads after)) - clk (reads before))%Z.
Proof. exact (fun clk before after k s => measures clk before after k s). Qed.
Print Assumptions C94_restart.
(** Without restart(): since its creation. *)
Theorem C94_new : forall clk before after s, let k := timers before in run clk (before ++ Make :: after ++ [Wall k]) begin = Ok s -> ~ In (Restart k) after ->
  exists out d, shown s = out ++ [seconds d] /\ fits64 d /\ d = (clk (S (reads before + reads after)) - clk (reads before))%Z.
Proof. exact (fun clk before after s => measures_new clk before after s). Qed.
Print Assumptions C94_new.
(** A copy goes on measuring from the start of the original, and is not affected by later restarts of the original. *)
Theorem C94_copy : forall clk before mid after j s, let k := timers (before ++ Restart j :: mid) in
  run clk (before ++ Restart j :: mid ++ Copy j :: after ++ [Wall k]) begin = Ok s -> ~ In (Restart j) mid -> ~ In (Restart k) after ->
  exists out d, shown s = out ++ [seconds d] /\ fits64 d /\ d = (clk (S (reads before + reads mid + reads after)) - clk (reads before))%Z.
Proof. exact (fun clk before mid after j s => measures_copy clk before mid after j s). Qed.
Print Assumptions C94_copy.
(** While the clock shows a time between 1970 and 2262, programs with timers that exist run to the end and show one number for each wall_time(). *)
Theorem C94_runs : forall clk p, (forall n, 0 <= clk n < 2 ^ 63)%Z -> names 0 p ->
  exists s, run clk p begin = Ok s /\ length (shown s) = length (filter (fun a => match a with Wall _ => true | _ => false end) p).
Proof. exact (fun clk p H N => runs clk p begin H (Forall_nil _) N). Qed.
Print Assumptions C94_runs.
(** The number of seconds is finite; it is the nearest double to the quotient for up to 2^53 nanoseconds (104 days), and rounded twice beyond. *)
Theorem C94_value : forall d, fits64 d -> is_finite (seconds d) = true /\ B2R (seconds d) = nearest (nearest (IZR d) / 1000000000) /\
  ((Z.abs d <= 2 ^ 53)%Z -> B2R (seconds d) = nearest (IZR d / 1000000000)).
Proof. exact (fun d H => conj (proj1 (seconds_value d H)) (conj (proj2 (seconds_value d H)) (seconds_exact d))). Qed.
Print Assumptions C94_value.
(** Longer times are not reported as shorter; the sign is that of the difference; whole seconds are exact. *)
Theorem C94_order : forall d d', fits64 d -> fits64 d' -> (d <= d')%Z -> B2R (seconds d) <= B2R (seconds d').
Proof. exact seconds_le. Qed.
Print Assumptions C94_order.
Theorem C94_sign : forall d, fits64 d -> (B2R (seconds d) < 0 <-> (d < 0)%Z) /\ (B2R (seconds d) = 0 <-> d = 0%Z).
Proof. exact seconds_sign. Qed.
Print Assumptions C94_sign.
Theorem C94_whole : forall n, (Z.abs n <= 9007199)%Z -> B2R (seconds (n * 1000000000)) = IZR n.
Proof. exact seconds_whole. Qed.
Print Assumptions C94_whole.
(** "wall_time() is never negative": false.  The clock is that of the system; if it is set back by an hour, so is the result. *)
Definition back : nat -> Z := fun n => match n with 0%nat => 3600000000000%Z | _ => 0%Z end.
Theorem C94_negative_refuted : exists x, run back [Make; Wall 0] begin = Ok (mkts 2 [3600000000000%Z] [x]) /\ B2R x = -3600.
Proof. exists (seconds (-3600 * 1000000000)). split; [reflexivity|]. exact (seconds_whole (-3600) ltac:(lia)). Qed.
Print Assumptions C94_negative_refuted.

(** Two timers, a restart of the first one, a copy of it: the first shows 2 s, its copy 5 s after another restart of the first. *)
Definition clock : nat -> Z := fun n => (Z.of_nat n * 1000000000 + 1700000000000000000)%Z.
Definition prog : list act := [Make; Make; Restart 0; Wall 1; Wall 0; Copy 0; Restart 0; Wall 1; Wall 2].
Example C94_case : run clock prog begin = Ok (mkts 8 [clock 5; clock 1; clock 2] [seconds (2 * 1000000000); seconds (2 * 1000000000); seconds (5 * 1000000000); seconds (5 * 1000000000)]) /\
  prog = [Make; Make] ++ Restart 0 :: [Wall 1; Wall 0] ++ Copy 0 :: [Restart 0; Wall 1] ++ [Wall (timers ([Make; Make] ++ Restart 0 :: [Wall 1; Wall 0]))] /\
  ~ In (Restart 0) [Wall 1; Wall 0] /\ ~ In (Restart 2) [Restart 0; Wall 1] /\ B2R (seconds (5 * 1000000000)) = 5.
Proof.
  split; [reflexivity|]. split; [reflexivity|]. split; [cbn; intuition discriminate|]. split; [cbn; intuition discriminate|]. exact (seconds_whole 5 ltac:(lia)).
Qed.
Example C94_case_value : fits64 (-1) /\ fits64 (2 ^ 53 + 1) /\ B2R (seconds 1500000000) = 3 / 2.
Proof.
  split; [unfold fits64; lia|]. split; [unfold fits64; lia|]. rewrite seconds_exact by lia. replace (1500000000 / 1000000000) with (3 / 2) by lra.
  apply round_generic; [typeclasses eauto|]. apply generic_format_FLT. exists (Float radix2 3 (-1)); [unfold F2R; cbn; lra|cbn; lia|cbn; lia].
Qed.
Example C94_case_runs : names 0 prog /\ (0 <= back 0 < 2 ^ 63)%Z.
Proof. split; [unfold prog; cbn; repeat split; lia|cbn; lia]. Qed.
