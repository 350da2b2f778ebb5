(** Semi-random numbers. *)
From Verif Require Import Base.Outcome Base.ZList Model.IntModel Model.StableOps Model.SemiRandom Spec.SemiSpec.
From Coq Require Import ZifyBool ZifyNat.
Local Ltac Zify.zify_post_hook ::= Z.div_mod_to_equations.

Lemma sg_init_ok tm seed : 0 <= tm < 256 -> 0 <= seed < two32 -> sg_init tm seed = Ok (start tm seed).
Proof.
  intros HT HS. unfold sg_init, imul, iadd, icast, wrap, arith, start, two32 in *. cbn [signed bind tmod tmax]. f_equal.
  rewrite (Z.mod_small tm) by lia. replace (tm <=? 4294967295) with true by lia.
  rewrite <- Z.add_mod by lia. f_equal. lia.
Qed.
Lemma sg_gen_ok c p : 0 <= p -> sg_generate c p = Ok (((8 * p + 13) mod two32) mod 10000000).
Proof.
  intros HP. unfold sg_generate, imul, iadd, imod, arith, two32. cbn [signed bind tmod tmax tmin].
  rewrite Z.add_mod_idemp_l by lia. pose proof (Z.mod_pos_bound (8 * p + 13) 4294967296 ltac:(lia)) as HB.
  set (q := (8 * p + 13) mod 4294967296) in *. clearbody q. change (10000000 =? 0) with false. cbn [negb]. rewrite check_debug_true. cbn [bind].
  rewrite Z.quot_div_nonneg by lia. unfold inr. cbn [tmin tmax].
  replace ((0 <=? q / 10000000) && (q / 10000000 <=? 4294967295)) with true by lia. f_equal. apply Z.rem_mod_nonneg; lia.
Qed.
Lemma start_bound tm seed : 0 <= start tm seed < two32 /\ (start tm seed) mod 32 = 0.
Proof. unfold start, two32. split; [apply Z.mod_pos_bound; lia|]. lia. Qed.
Lemma draw_bound tm seed k : 0 <= draw tm seed k < 10000000.
Proof. destruct k; cbn [draw]; apply Z.mod_pos_bound; lia. Qed.
Lemma draw_step c tm seed k : sg_generate c (draw tm seed k) = Ok (draw tm seed (S k)).
Proof.
  pose proof (draw_bound tm seed k). rewrite sg_gen_ok by lia. cbn [draw]. rewrite (Z.mod_small (8 * _ + 13)) by (unfold two32; lia). reflexivity.
Qed.
Lemma draw_first c tm seed : sg_generate c (start tm seed) = Ok (draw tm seed 0).
Proof. pose proof (start_bound tm seed). rewrite sg_gen_ok by lia. reflexivity. Qed.

Lemma draw0_128 tm seed : draw tm seed 0 mod 128 = 13.
Proof. cbn [draw]. pose proof (start_bound tm seed) as (_ & H). unfold two32. generalize dependent (start tm seed). intros s H. lia. Qed.
Lemma draw_128 tm seed k : draw tm seed (S k) mod 128 = (8 * (draw tm seed k mod 128) + 13) mod 128.
Proof. cbn [draw]. generalize (draw tm seed k). intros d. lia. Qed.
Lemma draw1_128 tm seed : draw tm seed 1 mod 128 = 117.
Proof. now rewrite draw_128, draw0_128. Qed.
Lemma draw_late tm seed k : (2 <= k)%nat -> draw tm seed k mod 128 = 53.
Proof.
  destruct k as [|[|k]]; try lia. intros _. induction k as [|k IH]; [now rewrite draw_128, draw1_128|]. rewrite draw_128, IH by lia. reflexivity.
Qed.
Lemma draw_8 tm seed k : draw tm seed k mod 8 = 5.
Proof.
  destruct (Nat.le_gt_cases 2 k) as [H|H]; [pose proof (draw_late tm seed k H)|destruct k as [|[|k]]; [pose proof (draw0_128 tm seed)|pose proof (draw1_128 tm seed)|lia]];
  generalize dependent (draw tm seed); intros d; lia.
Qed.
(** One draw of an integer. *)
Definition ival (low high d : Z) : Z := low + d mod (high - low + 1).
Definition bval (d d' : Z) : Z := if d' <? d then 0 else 1.

Lemma icast_small t d : 0 <= d < 10000000 -> icast t d = d.
Proof. intros H. unfold icast, wrap. destruct t; cbn [tmod tmax]; rewrite Z.mod_small by lia; match goal with |- context[?a <=? ?b] => replace (a <=? b) with true by lia end; reflexivity. Qed.
Lemma arith_in t z : tmin t <= z <= tmax t -> arith t z = Ok z.
Proof.
  intros H. unfold arith, inr. replace ((tmin t <=? z) && (z <=? tmax t)) with true by lia. destruct t; cbn [signed tmin tmax tmod] in *; try reflexivity; rewrite Z.mod_small by lia; reflexivity.
Qed.
Lemma tmin_le t : tmin t <= 0 /\ 10000000 < tmax t.
Proof. destruct t; cbn [tmin tmax]; lia. Qed.
Lemma sg_random_ok c t low high p d : tmin t <= low -> low <= high -> high <= tmax t -> width_ok t low high -> ~ unit_range low high -> 0 <= d < 10000000 ->
  sg_generate c p = Ok d -> sg_random c t low high p = Ok (ival low high d, d).
Proof.
  intros H1 H2 H3 HW HU HD E. unfold sg_random. rewrite E. cbn [bind]. unfold unit_range in HU.
  replace ((low =? 0) && (high =? 1)) with false by lia. unfold width_ok in HW. destruct (tmin_le t) as (T1 & T2).
  unfold isub. rewrite arith_in by lia. cbn [bind]. unfold iadd at 1. rewrite arith_in by lia. cbn [bind].
  set (w := high - low + 1) in *. rewrite icast_small by lia. unfold imod. replace (w =? 0) with false by lia. cbn [negb]. rewrite check_debug_true. cbn [bind].
  rewrite Z.quot_div_nonneg by lia. pose proof (Z.div_le_upper_bound d w d ltac:(lia) ltac:(nia)). pose proof (Z.div_pos d w ltac:(lia) ltac:(lia)).
  unfold inr. replace ((tmin t <=? d / w) && (d / w <=? tmax t)) with true by lia. cbn [bind]. rewrite Z.rem_mod_nonneg by lia.
  pose proof (Z.mod_pos_bound d w ltac:(lia)). unfold iadd. rewrite arith_in by lia. reflexivity.
Qed.
Lemma sg_random_unit c t p d d' : sg_generate c p = Ok d -> sg_generate c d = Ok d' -> sg_random c t 0 1 p = Ok (bval d d', d').
Proof. intros E1 E2. unfold sg_random. rewrite E1. cbn [bind]. change ((0 =? 0) && (1 =? 1)) with true. cbv iota. rewrite E2. reflexivity. Qed.
Lemma ival_range low high d : low <= high -> low <= ival low high d <= high.
Proof. intros H. unfold ival. pose proof (Z.mod_pos_bound d (high - low + 1) ltac:(lia)). lia. Qed.

(** ** semi_rands *)
Theorem semi_value c t tm seed low high : args_ok t tm seed low high -> width_ok t low high -> ~ unit_range low high ->
  semi_rands c t tm low high seed = Ok (low + draw tm seed 0 mod (high - low + 1)).
Proof.
  intros (HT & HS & H1 & H2 & H3) HW HU. unfold semi_rands. replace (low <=? high) with true by lia. rewrite check_debug_true, sg_init_ok by assumption. cbn [bind].
  rewrite (sg_random_ok c t low high _ (draw tm seed 0)); try assumption; [reflexivity|apply draw_bound|apply draw_first].
Qed.
Theorem semi_unit c t tm seed : args_ok t tm seed 0 1 ->
  semi_rands c t tm 0 1 seed = Ok (if draw tm seed 1 <? draw tm seed 0 then 0 else 1).
Proof.
  intros (HT & HS & H1 & H2 & H3). unfold semi_rands. rewrite check_debug_true, sg_init_ok by assumption. cbn [bind].
  rewrite (sg_random_unit c t _ (draw tm seed 0) (draw tm seed 1)); [reflexivity|apply draw_first|apply draw_step].
Qed.
Theorem semi_range c t tm seed low high : args_ok t tm seed low high -> width_ok t low high ->
  exists v, semi_rands c t tm low high seed = Ok v /\ low <= v <= high /\ v < low + 10000000.
Proof.
  intros HA HW. assert (HU : unit_range low high \/ ~ unit_range low high) by (unfold unit_range; lia). destruct HU as [(-> & ->)|HU].
  - eexists. split; [apply semi_unit; exact HA|]. destruct (_ <? _); lia.
  - eexists. split; [apply semi_value; assumption|]. destruct HA as (_ & _ & _ & HL & _). pose proof (draw_bound tm seed 0). pose proof (Z.mod_pos_bound (draw tm seed 0) (high - low + 1) ltac:(lia)).
    pose proof (Z.mod_le (draw tm seed 0) (high - low + 1) ltac:(lia) ltac:(lia)). lia.
Qed.
Theorem semi_reversed c t tm seed low high : checked c = true -> high < low -> semi_rands c t tm low high seed = Fail (report c).
Proof. intros HC HL. unfold semi_rands. replace (low <=? high) with false by lia. now rewrite check_debug_false. Qed.
(** The number of values is not a value of the type. *)
Theorem semi_overflow c t tm seed low high : signed t = true -> args_ok t tm seed low high -> ~ width_ok t low high -> semi_rands c t tm low high seed = UB.
Proof.
  intros HS (HT & HSd & H1 & H2 & H3) HW. unfold width_ok in HW. unfold semi_rands. replace (low <=? high) with true by lia. rewrite check_debug_true, sg_init_ok by assumption. cbn [bind].
  unfold sg_random. rewrite draw_first. cbn [bind]. destruct (tmin_le t) as (T1 & T2). replace ((low =? 0) && (high =? 1)) with false by lia.
  unfold isub, iadd, arith, inr. rewrite HS. destruct ((tmin t <=? high - low) && (high - low <=? tmax t)); [|reflexivity]. cbn [bind]. replace (high - low + 1 <=? tmax t) with false by lia. now rewrite andb_false_r.
Qed.
Theorem semi_full c t tm seed : signed t = false -> 0 <= tm < 256 -> 0 <= seed < two32 ->
  semi_rands c t tm 0 (tmax t) seed = if checked c then Fail (report c) else UB.
Proof.
  intros HS HT HSd. unfold semi_rands. destruct (tmin_le t) as (T1 & T2). replace (0 <=? tmax t) with true by lia. rewrite check_debug_true, sg_init_ok by assumption. cbn [bind].
  unfold sg_random. rewrite draw_first. cbn [bind]. replace (tmax t =? 1) with false by lia. cbn [andb Z.eqb]. unfold isub. rewrite arith_in by lia. cbn [bind]. unfold iadd at 1, arith. rewrite HS. cbn [bind].
  replace ((tmax t - 0 + 1) mod tmod t) with 0 by (destruct t; try discriminate; reflexivity). unfold imod. cbn [Z.eqb negb].
  destruct (check_debug_cases c false) as [(-> & [HC|HC])|(-> & _ & HC)]; [discriminate|rewrite HC; reflexivity|rewrite HC; reflexivity].
Qed.

(** ** Arrays *)
Lemma skipn_next {V} n (l : list V) x k : skipn n l = x :: k -> skipn (S n) l = k.
Proof. revert l. induction n as [|n IH]; intros [|y l] E; try discriminate; [cbn in E; injection E as -> ->; reflexivity|]. cbn [skipn] in E |- *. now apply IH. Qed.
Lemma sg_fill_vals {V} (rnd : Z -> outcome (V * Z)) (st : nat -> Z) (f : nat -> V) (l : list V) :
  (forall k, rnd (st k) = Ok (f k, st (S k))) ->
  sg_fill rnd (zlen l) l (st O) = Ok (map f (seq 0 (length l)), st (length l)).
Proof.
  intros HR. unfold sg_fill.
  destruct (for_inv (fun i s => s = (map f (seq 0 (Z.to_nat i)) ++ skipn (Z.to_nat i) l, st (Z.to_nat i))) 0 (zlen l)
    (fun i s => ' r <- rnd (snd s) ;; b' <- oset (fst s) i (fst r) ;; Ok (b', snd r)) (l, st O)) as (s' & E & HS).
  - apply zlen_nonneg.
  - reflexivity.
  - intros i s Hi ->. cbn [fst snd]. rewrite HR. cbn [bind fst snd].
    assert (LM : zlen (map f (seq 0 (Z.to_nat i))) = i) by (unfold zlen; rewrite map_length, seq_length; lia).
    assert (LS : zlen (skipn (Z.to_nat i) l) = zlen l - i) by (apply zlen_skipn; lia).
    rewrite oset_ok by (rewrite zlen_app, LM, LS; lia). cbn [bind]. eexists. split; [reflexivity|].
    replace (Z.to_nat (i + 1)) with (S (Z.to_nat i)) by lia. f_equal.
    rewrite zupd_app_r by lia. rewrite LM, Z.sub_diag. rewrite seq_S, map_app, <- app_assoc. f_equal. cbn [map app Nat.add].
    destruct (skipn (Z.to_nat i) l) as [|x k] eqn:EK; [rewrite zlen_nil in LS; lia|]. rewrite (skipn_next _ _ _ _ EK). reflexivity.
  - rewrite E, HS. unfold zlen. rewrite Nat2Z.id, skipn_all, app_nil_r. reflexivity.
Qed.
Definition states (tm seed : Z) (k : nat) : Z := match k with O => start tm seed | S k' => draw tm seed k' end.
Lemma states_next c tm seed k : sg_generate c (states tm seed k) = Ok (draw tm seed k).
Proof. destruct k; [apply draw_first|apply draw_step]. Qed.
Lemma seed_ok seed n : 0 <= seed < two32 -> 0 <= n -> iadd U32 seed (icast U32 n) = Ok (seed_of seed n) /\ 0 <= seed_of seed n < two32.
Proof.
  intros HS HN. unfold iadd, icast, wrap, arith, seed_of, two32 in *. cbn [signed tmod tmax]. pose proof (Z.mod_pos_bound n 4294967296 ltac:(lia)).
  replace (n mod 4294967296 <=? 4294967295) with true by lia. split; [|apply Z.mod_pos_bound; lia]. f_equal. rewrite Z.add_mod_idemp_r by lia. reflexivity.
Qed.
Theorem fill_values c t tm seed low high l : args_ok t tm seed low high -> width_ok t low high -> ~ unit_range low high ->
  semi_random_fill c t tm low high seed l = Ok (map (fun k => low + draw tm (seed_of seed (zlen l)) k mod (high - low + 1)) (seq 0 (length l))).
Proof.
  intros (HT & HS & H1 & H2 & H3) HW HU. unfold semi_random_fill. replace (low <=? high) with true by lia. rewrite check_debug_true. cbn [bind].
  destruct (seed_ok seed (zlen l) HS (zlen_nonneg l)) as (-> & HB). cbn [bind]. rewrite sg_init_ok by assumption. cbn [bind].
  set (s := seed_of seed (zlen l)) in *.
  change (start tm s) with (states tm s 0). rewrite (sg_fill_vals _ (states tm s) (fun k => ival low high (draw tm s k)) l); [reflexivity|].
  intros k. cbn [states]. apply sg_random_ok; try assumption; [apply draw_bound|apply states_next].
Qed.
Definition states2 (tm seed : Z) (k : nat) : Z := match k with O => start tm seed | S k' => draw tm seed (2 * k' + 1) end.
Theorem fill_unit c t tm seed l : args_ok t tm seed 0 1 ->
  semi_random_fill c t tm 0 1 seed l =
  Ok (map (fun k => let s := seed_of seed (zlen l) in if draw tm s (2 * k + 1) <? draw tm s (2 * k) then 0 else 1) (seq 0 (length l))).
Proof.
  intros (HT & HS & _). unfold semi_random_fill. rewrite check_debug_true. cbn [bind].
  destruct (seed_ok seed (zlen l) HS (zlen_nonneg l)) as (-> & HB). cbn [bind]. rewrite sg_init_ok by assumption. cbn [bind].
  set (s := seed_of seed (zlen l)) in *.
  change (start tm s) with (states2 tm s 0). rewrite (sg_fill_vals _ (states2 tm s) (fun k => bval (draw tm s (2 * k)) (draw tm s (2 * k + 1))) l); [reflexivity|].
  intros k. cbn [states2]. apply sg_random_unit.
  - destruct k as [|k]; [apply draw_first|]. cbn [states2]. replace (2 * S k)%nat with (S (2 * k + 1)) by lia. apply draw_step.
  - replace (2 * k + 1)%nat with (S (2 * k)) by lia. apply draw_step.
Qed.
Theorem fill_range c t tm seed low high l : args_ok t tm seed low high -> width_ok t low high ->
  exists r, semi_random_fill c t tm low high seed l = Ok r /\ length r = length l /\ forall v, In v r -> low <= v <= high /\ v < low + 10000000.
Proof.
  intros HA HW. assert (HU : unit_range low high \/ ~ unit_range low high) by (unfold unit_range; lia). destruct HU as [(-> & ->)|HU].
  - eexists. split; [apply fill_unit; exact HA|]. split; [now rewrite map_length, seq_length|]. intros v Hv. apply in_map_iff in Hv. destruct Hv as (k & <- & _). cbv zeta. destruct (_ <? _); lia.
  - eexists. split; [apply fill_values; assumption|]. split; [now rewrite map_length, seq_length|]. intros v Hv. apply in_map_iff in Hv. destruct Hv as (k & <- & _).
    destruct HA as (_ & _ & _ & HL & _). set (d := draw _ _ _). pose proof (draw_bound tm (seed_of seed (zlen l)) k). fold d in H. pose proof (Z.mod_pos_bound d (high - low + 1) ltac:(lia)).
    pose proof (Z.mod_le d (high - low + 1) ltac:(lia) ltac:(lia)). lia.
Qed.

(** ** Ranges of a power of two values *)
Theorem semi_constant c t tm seed low high : args_ok t tm seed low high -> pow2_8 (high - low + 1) -> ~ unit_range low high ->
  semi_rands c t tm low high seed = Ok (low + 5 mod (high - low + 1)).
Proof.
  intros HA HW HU. rewrite semi_value; try assumption.
  - do 2 f_equal. pose proof (draw_8 tm seed 0) as H8. destruct HW as [-> | [-> | ->]]; generalize dependent (draw tm seed 0); intros d H8; lia.
  - unfold width_ok. destruct (tmin_le t). unfold pow2_8 in HW. lia.
Qed.
Lemma map_const {A B} (f : A -> B) v l : (forall x, In x l -> f x = v) -> map f l = repeat v (length l).
Proof. induction l as [|x l IH]; intros H; [reflexivity|]. cbn [map length repeat]. rewrite (H x) by now left. f_equal. apply IH. intros y Hy. apply H. now right. Qed.
Theorem fill_constant c t tm seed low high l : args_ok t tm seed low high -> pow2_8 (high - low + 1) -> ~ unit_range low high ->
  semi_random_fill c t tm low high seed l = Ok (repeat (low + 5 mod (high - low + 1)) (length l)).
Proof.
  intros HA HW HU. rewrite fill_values; try assumption.
  - f_equal. rewrite (map_const _ (low + 5 mod (high - low + 1))); [now rewrite seq_length|]. intros k _. f_equal. pose proof (draw_8 tm (seed_of seed (zlen l)) k) as H8.
    destruct HW as [-> | [-> | ->]]; generalize dependent (draw tm (seed_of seed (zlen l)) k); intros d H8; lia.
  - unfold width_ok. destruct (tmin_le t). unfold pow2_8 in HW. lia.
Qed.
Lemma late_w d w : pow2_128 w -> d mod 128 = 53 -> d mod w = 53 mod w.
Proof. intros HW H. destruct HW as [-> | [-> | [-> | [-> | [-> | [-> | ->]]]]]]; lia. Qed.
Theorem fill_late c t tm seed low high l : args_ok t tm seed low high -> pow2_128 (high - low + 1) -> ~ unit_range low high ->
  exists r, semi_random_fill c t tm low high seed l = Ok r /\ zlen r = zlen l /\ forall i, 2 <= i < zlen l -> znth r i = Some (low + 53 mod (high - low + 1)).
Proof.
  intros HA HW HU. eexists. split; [apply fill_values; try assumption|].
  - unfold width_ok. destruct (tmin_le t). unfold pow2_128 in HW. lia.
  - split; [unfold zlen; now rewrite map_length, seq_length|]. intros i Hi. rewrite znth_map. unfold zlen in Hi.
    unfold znth. replace (i <? 0) with false by lia. rewrite (nth_error_nth' _ O) by (rewrite seq_length; lia). rewrite seq_nth by lia. cbn [option_map Nat.add]. do 2 f_equal.
    apply late_w; [exact HW|]. apply draw_late. lia.
Qed.

(** ** Non-zero values *)
Lemma not0_value c t tm seed low high fuel k r : tmin t <= low -> low <= high -> high <= tmax t -> width_ok t low high -> ~ unit_range low high ->
  not0_loop (sg_random c t low high) fuel (states tm seed k) = Ok r ->
  match r with
  | None => forall j, (j < fuel)%nat -> low + draw tm seed (k + j) mod (high - low + 1) = 0
  | Some (v, p) => exists j, (j < fuel)%nat /\ v = low + draw tm seed (k + j) mod (high - low + 1) /\ v <> 0 /\ p = states tm seed (S (k + j))
  end.
Proof.
  intros H1 H2 H3 HW HU. revert k r. induction fuel as [|f IH]; intros k r; cbn [not0_loop].
  - intros [= <-]. intros j Hj. lia.
  - rewrite (sg_random_ok c t low high _ (draw tm seed k)); try assumption; [|apply draw_bound|apply states_next]. cbn [bind fst snd].
    destruct (ival low high (draw tm seed k) =? 0) eqn:E; cbn [negb].
    + intros HR. specialize (IH (S k) r HR). destruct r as [[v p]|].
      * destruct IH as (j & Hj & A & B & C). exists (S j). replace (k + S j)%nat with (S k + j)%nat by lia. repeat split; trivial. lia.
      * intros [|j] Hj; [rewrite Nat.add_0_r; unfold ival in E; lia|]. replace (k + S j)%nat with (S k + j)%nat by lia. apply IH. lia.
    + intros [= <-]. exists O. rewrite Nat.add_0_r. unfold ival in *. repeat split; try lia. 
Qed.
Lemma not0_ok c t tm seed low high fuel k : tmin t <= low -> low <= high -> high <= tmax t -> width_ok t low high -> ~ unit_range low high ->
  exists r, not0_loop (sg_random c t low high) fuel (states tm seed k) = Ok r.
Proof.
  intros H1 H2 H3 HW HU. revert k. induction fuel as [|f IH]; intros k; cbn [not0_loop]; [eexists; reflexivity|].
  rewrite (sg_random_ok c t low high _ (draw tm seed k)); try assumption; [|apply draw_bound|apply states_next]. cbn [bind fst snd].
  destruct (ival low high (draw tm seed k) =? 0); cbn [negb]; [apply (IH (S k))|eexists; reflexivity].
Qed.
Lemma not0_unit_value c t tm seed fuel k r : not0_loop (sg_random c t 0 1) fuel (states2 tm seed k) = Ok r -> match r with Some (v, _) => v = 1 | None => True end.
Proof.
  revert k r. induction fuel as [|f IH]; intros k r; cbn [not0_loop]; [now intros [= <-]|].
  rewrite (sg_random_unit c t _ (draw tm seed (2 * k)) (draw tm seed (2 * k + 1))).
  - cbn [bind fst snd]. destruct (bval _ _ =? 0) eqn:E; cbn [negb]; [apply (IH (S k))|]. intros [= <-]. unfold bval in *. destruct (_ <? _); [discriminate|reflexivity].
  - destruct k as [|k]; [apply draw_first|]. cbn [states2]. replace (2 * S k)%nat with (S (2 * k + 1)) by lia. apply draw_step.
  - replace (2 * k + 1)%nat with (S (2 * k)) by lia. apply draw_step.
Qed.
(** The value returned. *)
Theorem not0_range c t fuel tm seed low high v : args_ok t tm seed low high -> width_ok t low high ->
  semi_rands_not0 c t fuel tm low high seed = Ok (Some v) -> v <> 0 /\ low <= v <= high.
Proof.
  intros (HT & HS & H1 & H2 & H3) HW. unfold semi_rands_not0. replace (low <=? high) with true by lia. rewrite check_debug_true. cbn [bind].
  destruct (check_debug c (Ok (negb ((low =? 0) && (high =? 0))))) as [[]| |]; cbn [bind]; try discriminate. rewrite sg_init_ok by assumption. cbn [bind].
  assert (HU : unit_range low high \/ ~ unit_range low high) by (unfold unit_range; lia). destruct HU as [(-> & ->)|HU].
  - change (start tm seed) with (states2 tm seed 0). destruct (not0_loop _ _ _) as [r| |] eqn:E; try discriminate. cbn [bind]. apply not0_unit_value in E. destruct r as [[v' p]|]; cbn [option_map fst]; [|discriminate]. intros [= <-]. lia.
  - change (start tm seed) with (states tm seed 0). destruct (not0_loop _ _ _) as [r| |] eqn:E; try discriminate. cbn [bind]. apply not0_value in E; try assumption. destruct r as [[v' p]|]; cbn [option_map fst]; [|discriminate]. intros [= <-].
    destruct E as (j & _ & -> & HN & _). split; [exact HN|]. apply (ival_range low high). exact H2.
Qed.
(** Exactly when it is still running. *)
Theorem not0_running c t fuel tm seed low high : args_ok t tm seed low high -> width_ok t low high -> ~ unit_range low high -> ~ (low = 0 /\ high = 0) ->
  (exists v, semi_rands_not0 c t fuel tm low high seed = Ok (Some v)) \/
  (semi_rands_not0 c t fuel tm low high seed = Ok None /\ forall j, (j < fuel)%nat -> low + draw tm seed j mod (high - low + 1) = 0).
Proof.
  intros (HT & HS & H1 & H2 & H3) HW HU HZ. unfold semi_rands_not0. replace (low <=? high) with true by lia. replace ((low =? 0) && (high =? 0)) with false by lia. cbn [negb]. rewrite !check_debug_true. cbn [bind].
  rewrite sg_init_ok by assumption. cbn [bind]. change (start tm seed) with (states tm seed 0).
  destruct (not0_ok c t tm seed low high fuel 0 H1 H2 H3 HW HU) as (r & E). rewrite E. apply not0_value in E; try assumption. cbn [bind]. destruct r as [[v p]|]; cbn [option_map fst].
  - left. eexists. reflexivity.
  - right. split; [reflexivity|exact E].
Qed.
(** A range without zero needs one draw. *)
Theorem not0_direct c t fuel tm seed low high : args_ok t tm seed low high -> width_ok t low high -> 0 < low \/ high < 0 ->
  semi_rands_not0 c t (S fuel) tm low high seed = Ok (Some (low + draw tm seed 0 mod (high - low + 1))).
Proof.
  intros (HT & HS & H1 & H2 & H3) HW HN. unfold semi_rands_not0. replace (low <=? high) with true by lia. replace ((low =? 0) && (high =? 0)) with false by lia. cbn [negb]. rewrite !check_debug_true. cbn [bind].
  rewrite sg_init_ok by assumption. cbn [bind not0_loop]. rewrite (sg_random_ok c t low high _ (draw tm seed 0)); try assumption; [|unfold unit_range; lia|apply draw_bound|apply draw_first]. cbn [bind fst].
  pose proof (ival_range low high (draw tm seed 0) H2). replace (ival low high (draw tm seed 0) =? 0) with false by lia. reflexivity.
Qed.
Lemma not0_none c t tm seed low high fuel k : tmin t <= low -> low <= high -> high <= tmax t -> width_ok t low high -> ~ unit_range low high ->
  (forall j, (k <= j)%nat -> low + draw tm seed j mod (high - low + 1) = 0) -> not0_loop (sg_random c t low high) fuel (states tm seed k) = Ok None.
Proof.
  intros H1 H2 H3 HW HU HD. destruct (not0_ok c t tm seed low high fuel k H1 H2 H3 HW HU) as (r & E). rewrite E. apply not0_value in E; try assumption. destruct r as [[v p]|]; [|reflexivity].
  destruct E as (j & _ & -> & HN & _). exfalso. apply HN. apply HD. lia.
Qed.
(** Never returns, for any seed and any number of iterations. *)
Theorem not0_never c t fuel tm seed low high : signed t = true -> 0 <= tm < 256 -> 0 <= seed < two32 -> In (low, high) [(-1, 0); (-1, 2); (-5, 2)] ->
  semi_rands_not0 c t fuel tm low high seed = Ok None.
Proof.
  intros HS HT HSd HI. unfold semi_rands_not0. assert (HL : low <= high /\ ~ (low = 0 /\ high = 0)) by (cbn [In] in HI; intuition; try congruence; match goal with H : (_, _) = _ |- _ => injection H as <- <- end; lia).
  replace (low <=? high) with true by lia. replace ((low =? 0) && (high =? 0)) with false by lia. cbn [negb]. rewrite !check_debug_true. cbn [bind]. rewrite sg_init_ok by assumption. cbn [bind].
  change (start tm seed) with (states tm seed 0). rewrite not0_none; [reflexivity|..].
  1-5: cbn [In] in HI; unfold width_ok, unit_range; intuition; match goal with H : (_, _) = _ |- _ => injection H as <- <- end; destruct t; cbn [tmin tmax] in *; try discriminate; lia.
  intros j _. pose proof (draw_8 tm seed j) as H8. generalize dependent (draw tm seed j). intros d H8. cbn [In] in HI. destruct HI as [E|[E|[E|[]]]]; injection E as <- <-; lia.
Qed.
(** Zero is the only value. *)
Theorem not0_zero c t fuel tm seed : 0 <= tm < 256 -> 0 <= seed < two32 -> semi_rands_not0 c t fuel tm 0 0 seed = if checked c then Fail (report c) else Ok None.
Proof.
  intros HT HS. unfold semi_rands_not0. rewrite check_debug_true. cbn [bind Z.eqb andb negb].
  destruct (check_debug_cases c false) as [(-> & [HC|HC])|(-> & _ & HC)]; [discriminate| |now rewrite HC]. rewrite HC. cbn [bind]. rewrite sg_init_ok by assumption. cbn [bind].
  change (start tm seed) with (states tm seed 0). destruct (tmin_le t). rewrite not0_none; [reflexivity|try lia..].
  - unfold width_ok. lia.
  - unfold unit_range. lia.
Qed.
Theorem not0_reversed c t fuel tm seed low high : checked c = true -> high < low -> semi_rands_not0 c t fuel tm low high seed = Fail (report c).
Proof. intros HC HL. unfold semi_rands_not0. replace (low <=? high) with false by lia. now rewrite check_debug_false. Qed.

(** Arrays: in ranges of 2 to 128 values, a power of two, the third element is never reached if the constant is zero. *)
Lemma not0_fill_none c t tm seed low high fuel n k i b : tmin t <= low -> low <= high -> high <= tmax t -> pow2_128 (high - low + 1) -> ~ unit_range low high -> low + 53 mod (high - low + 1) = 0 ->
  (2 < n + k)%nat -> (0 < n)%nat -> 0 <= i -> i + Z.of_nat n = zlen b -> not0_fill (sg_random c t low high) fuel n i b (states tm seed k) = Ok None.
Proof.
  intros H1 H2 H3 HP HU H0. assert (HW : width_ok t low high) by (unfold width_ok; destruct (tmin_le t); unfold pow2_128 in HP; lia).
  revert k i b. induction n as [|n IH]; intros k i b HN HK HI HB; [lia|]. cbn [not0_fill].
  destruct (Nat.le_gt_cases 2 k) as [K|K].
  - rewrite not0_none; try assumption; [reflexivity|]. intros j Hj. rewrite (late_w _ _ HP); [exact H0|]. apply draw_late. lia.
  - destruct (not0_ok c t tm seed low high fuel k H1 H2 H3 HW HU) as (r & E). rewrite E. apply not0_value in E; try assumption. cbn [bind]. destruct r as [[v p]|]; [|reflexivity].
    destruct E as (j & _ & _ & _ & ->). rewrite oset_ok by lia. cbn [bind]. apply IH; try lia. rewrite zlen_zupd. lia.
Qed.
Theorem not0_arrays c t fuel tm seed low high l : args_ok t tm seed low high -> pow2_128 (high - low + 1) -> ~ unit_range low high -> low + 53 mod (high - low + 1) = 0 -> 3 <= zlen l ->
  semi_random_not0 c t fuel tm low high seed l = Ok None.
Proof.
  intros (HT & HS & H1 & H2 & H3) HP HU H0 HL. unfold semi_random_not0. replace (low <=? high) with true by lia. assert (~ (low = 0 /\ high = 0)) by (unfold pow2_128 in HP; lia).
  replace ((low =? 0) && (high =? 0)) with false by lia. cbn [negb]. rewrite !check_debug_true. cbn [bind]. destruct (seed_ok seed (zlen l) HS (zlen_nonneg l)) as (-> & HB). cbn [bind]. rewrite sg_init_ok by assumption. cbn [bind].
  change (start tm (seed_of seed (zlen l))) with (states tm (seed_of seed (zlen l)) 0). unfold zlen in HL. apply not0_fill_none; try assumption; try lia. reflexivity.
Qed.
Lemma not0_fill_range c t tm seed low high fuel n k i b r : tmin t <= low -> low <= high -> high <= tmax t -> width_ok t low high -> ~ unit_range low high ->
  0 <= i -> i + Z.of_nat n = zlen b -> not0_fill (sg_random c t low high) fuel n i b (states tm seed k) = Ok (Some r) ->
  zlen r = zlen b /\ (forall j, 0 <= j < i -> znth r j = znth b j) /\ forall j, i <= j < zlen b -> exists v, znth r j = Some v /\ v <> 0 /\ low <= v <= high.
Proof.
  intros H1 H2 H3 HW HU. revert k i b. induction n as [|n IH]; intros k i b HI HB; cbn [not0_fill].
  - intros [= <-]. repeat split; trivial. intros j Hj. lia.
  - destruct (not0_ok c t tm seed low high fuel k H1 H2 H3 HW HU) as (r0 & E). rewrite E. apply not0_value in E; try assumption. cbn [bind]. destruct r0 as [[v p]|]; [|discriminate].
    destruct E as (j & _ & EV & NV & ->). rewrite oset_ok by lia. cbn [bind]. intros HR. apply IH in HR; [|lia|rewrite zlen_zupd; lia]. rewrite zlen_zupd in HR. destruct HR as (A & B & C). split; [exact A|]. split.
    + intros q Hq. rewrite B by lia. rewrite znth_zupd by lia. now replace (q =? i) with false by lia.
    + intros q Hq. destruct (Z.eq_dec q i) as [->|Hne]; [|apply C; lia]. rewrite B by lia. rewrite znth_zupd by lia. rewrite Z.eqb_refl. exists v. split; [reflexivity|]. split; [exact NV|]. rewrite EV. apply (ival_range low high). exact H2.
Qed.
Theorem not0_arrays_range c t fuel tm seed low high l r : args_ok t tm seed low high -> width_ok t low high -> ~ unit_range low high ->
  semi_random_not0 c t fuel tm low high seed l = Ok (Some r) -> zlen r = zlen l /\ forall v, In v r -> v <> 0 /\ low <= v <= high.
Proof.
  intros (HT & HS & H1 & H2 & H3) HW HU. unfold semi_random_not0. replace (low <=? high) with true by lia. rewrite check_debug_true. cbn [bind].
  destruct (check_debug c (Ok (negb ((low =? 0) && (high =? 0))))) as [[]| |]; cbn [bind]; try discriminate. destruct (seed_ok seed (zlen l) HS (zlen_nonneg l)) as (-> & HB). cbn [bind]. rewrite sg_init_ok by assumption. cbn [bind].
  change (start tm (seed_of seed (zlen l))) with (states tm (seed_of seed (zlen l)) 0). intros E. apply not0_fill_range in E; try assumption; try lia; [|reflexivity]. destruct E as (A & _ & C). split; [exact A|].
  intros v Hv. apply in_znth in Hv. destruct Hv as (i & Hi). pose proof (znth_lt _ _ _ Hi). rewrite A in H. destruct (C i H) as (w & Hw & ?). congruence.
Qed.

(** ** A seed with constant draws *)
Theorem draws_stuck tm k : (2 <= k)%nat -> draw tm (7688013 - tm) k = 2857141.
Proof.
  assert (D : draw tm (7688013 - tm) 2 = 2857141).
  { cbn [draw]. unfold start. replace (tm + (7688013 - tm)) with 7688013 by lia. reflexivity. }
  destruct k as [|[|k]]; try lia. intros _. induction k as [|k IH]; [exact D|]. change (draw tm (7688013 - tm) (S (S (S k)))) with ((8 * draw tm (7688013 - tm) (S (S k)) + 13) mod 10000000). rewrite IH by lia. reflexivity.
Qed.

(** ** Expressions *)
Lemma reads_vals c t low high (st : nat -> Z) (f : nat -> Z) : (forall k, sg_random c t low high (st k) = Ok (f k, st (S k))) ->
  forall is k, semi_reads c t low high is (st k) = Ok (map f (seq k (length is)), st (k + length is)%nat).
Proof.
  intros HR. induction is as [|i is IH]; intros k; cbn [semi_reads length seq map]; [now rewrite Nat.add_0_r|]. unfold semi_expr_un. rewrite HR. cbn [bind fst snd]. rewrite (IH (S k)). cbn [bind fst snd]. now replace (S k + length is)%nat with (k + S (length is))%nat by lia.
Qed.
Theorem expr_reads c t tm seed low high n is : args_ok t tm seed low high -> width_ok t low high -> ~ unit_range low high -> 0 <= n ->
  exists p q, semi_expr_init c tm low high seed n = Ok p /\ semi_reads c t low high is p = Ok (map (fun k => low + draw tm (seed_of seed n) k mod (high - low + 1)) (seq 0 (length is)), q).
Proof.
  intros (HT & HS & H1 & H2 & H3) HW HU Hn. unfold semi_expr_init. replace (low <=? high) with true by lia. rewrite check_debug_true. cbn [bind].
  destruct (seed_ok seed n HS Hn) as (-> & HB). cbn [bind]. rewrite sg_init_ok by assumption. set (s := seed_of seed n) in *. exists (states tm s 0), (states tm s (0 + length is)). split; [reflexivity|].
  apply (reads_vals c t low high (states tm s) (fun k => ival low high (draw tm s k))). intros k. apply sg_random_ok; try assumption; [apply draw_bound|apply states_next].
Qed.
Theorem expr_fill c t tm seed low high l : args_ok t tm seed low high -> width_ok t low high -> ~ unit_range low high ->
  exists p r q, semi_expr_init c tm low high seed (zlen l) = Ok p /\ semi_reads c t low high (zseq 0 (length l)) p = Ok (r, q) /\ semi_random_fill c t tm low high seed l = Ok r.
Proof.
  intros HA HW HU. destruct (expr_reads c t tm seed low high (zlen l) (zseq 0 (length l)) HA HW HU (zlen_nonneg l)) as (p & q & H1 & H2). exists p. eexists. exists q. split; [exact H1|]. split; [exact H2|]. rewrite fill_values by assumption.
  replace (length (zseq 0 (length l))) with (length l); [reflexivity|]. symmetry. apply zseq_length.
Qed.
Theorem expr_reversed c tm seed low high n : checked c = true -> high < low -> semi_expr_init c tm low high seed n = Fail (report c).
Proof. intros HC HL. unfold semi_expr_init. replace (low <=? high) with false by lia. now rewrite check_debug_false. Qed.
