(** pow_prods: the compensated power. *)
From Coq Require Import Ring_theory Ring.
From Verif Require Import Base.Outcome Base.ZList Model.IntModel Model.Index Model.Array1D Model.StableOps.
From Verif Require Import Spec.ReduceSpec Spec.StableSpec.
From Verif Require Import Proofs.StableLoops Proofs.ExactProofs.
Ltac Zify.zify_post_hook ::= Z.div_mod_to_equations.

Section VALUE.
Context {V : Type} (N : num V) (c : cfg) (tp : V -> V -> V * V).
(** Rounded powers of r and the residues of their computation. *)
Fixpoint rho (r : V) (k : nat) : V :=
  match k with
  | O => none_ N
  | S k' => match k' with O => r | S _ => fst (tp (rho r k') r) end
  end.
Definition sg (r : V) (k : nat) : V := snd (tp (rho r (S k)) r).
Lemma rho_SS r k : rho r (S (S k)) = fst (tp (rho r (S k)) r).
Proof. reflexivity. Qed.
Definition sum_loc (r : V) (sz : Z) : V :=
  fold_left (fun s i => nadd N s (nmul N (rho r (Z.to_nat i)) (sg r (Z.to_nat (sz - 1 - i))))) (zseq 0 (Z.to_nat sz)) (nzero N).

Lemma pow_value x p : 6 <= p <= LONG_MAX -> 2 * (p / 2 - 1) <= amax c ->
  pow_prods_tp N c tp x p =
  let (r, s) := tp x x in
  let n := p / 2 in let m := Z.to_nat n in let sl := sum_loc r (n - 1) in
  Ok (if p mod 2 =? 0 then (rho r m, nadd N (nmul N (nmul N (nofZ N n) (rho r (m - 1))) s) sl)
      else let (q, t) := tp (rho r m) x in
           (q, nadd N (nadd N (nmul N (nmul N (nmul N (nofZ N n) x) (rho r (m - 1))) s) (nmul N x sl)) t)).
Proof.
  intros HP HM. unfold pow_prods_tp. replace (-1 <? p) with true by lia. rewrite check_debug_true. cbn [bind].
  replace (p =? 0) with false by lia. replace (p =? 1) with false by lia. replace (p =? 2) with false by lia. replace (p =? 3) with false by lia. replace (p =? 4) with false by lia. replace (p =? 5) with false by lia.
  destruct (tp x x) as [r s]. replace (Z.quot p 2) with (p / 2) by (symmetry; apply Z.quot_div_nonneg; lia).
  replace (Z.rem p 2) with (p mod 2) by (symmetry; apply Z.rem_mod_nonneg; lia).
  assert (HN : 3 <= p / 2 <= LONG_MAX) by (unfold LONG_MAX in *; lia). assert (HP2 : 2 * (p / 2) <= LONG_MAX) by lia. set (n := p / 2) in *. clearbody n. set (b := p mod 2 =? 0). clearbody b.
  cbn zeta. rewrite lsub_ok by (unfold LONG_MIN, LONG_MAX in *; lia). cbn [bind]. rewrite lmul_ok by (unfold LONG_MIN, LONG_MAX in *; lia). cbn [bind].
  set (sz := n - 1) in *. assert (ES : n = sz + 1) by (subst sz; lia). clearbody sz. subst n.
  unfold alloc. replace ((2 * sz <? 0) || (amax c <? 2 * sz)) with false by lia. cbn [bind].
  rewrite oset_ok by (rewrite zlen_repeat by lia; lia). cbn [bind]. rewrite oset_ok by (rewrite zlen_zupd, zlen_repeat by lia; lia). cbn [bind].
  set (t0 := zupd (zupd (repeat (nzero N) (Z.to_nat (2 * sz))) 0 (none_ N)) 1 r).
  assert (L0 : zlen t0 = 2 * sz) by (subst t0; rewrite !zlen_zupd, zlen_repeat by lia; lia).
  match goal with |- bind (for_ 2 sz ?body t0) _ = _ =>
    destruct (for_inv (fun i t => zlen t = 2 * sz /\ (forall k, 0 <= k < i -> znth t k = Some (rho r (Z.to_nat k))) /\
                                  (forall k, 0 <= k < i - 2 -> znth t (sz + k) = Some (sg r (Z.to_nat k)))) 2 sz body t0) as (t1 & -> & L1 & HR & HS) end.
  - lia.
  - split; [exact L0|]. split; [|intros; lia]. intros k Hk. subst t0. rewrite znth_zupd by (rewrite zlen_zupd, zlen_repeat by lia; lia).
    destruct (Z.eqb_spec k 1) as [->|Hk1]; [reflexivity|]. assert (k = 0) as -> by lia. rewrite znth_zupd by (rewrite zlen_repeat by lia; lia). reflexivity.
  - intros i t Hi (L & HR & HS). rewrite (oget_ok _ _ _ (HR (i - 1) ltac:(lia))). cbn [bind].
    assert (E1 : rho r (Z.to_nat i) = fst (tp (rho r (Z.to_nat (i - 1))) r)).
    { replace (Z.to_nat i) with (S (S (Z.to_nat (i - 2)))) by lia. rewrite rho_SS. replace (S (Z.to_nat (i - 2))) with (Z.to_nat (i - 1)) by lia. reflexivity. }
    assert (E2 : sg r (Z.to_nat (i - 2)) = snd (tp (rho r (Z.to_nat (i - 1))) r)).
    { unfold sg. replace (S (Z.to_nat (i - 2))) with (Z.to_nat (i - 1)) by lia. reflexivity. }
    destruct (tp (rho r (Z.to_nat (i - 1))) r) as [rc scu]. cbn [fst snd] in E1, E2.
    rewrite oset_ok by lia. cbn [bind]. rewrite oset_ok by (rewrite zlen_zupd; lia). eexists. split; [reflexivity|].
    split; [now rewrite !zlen_zupd|]. split.
    + intros k Hk. rewrite znth_zupd by (rewrite zlen_zupd; lia). replace (k =? sz + (i - 2)) with false by lia. rewrite znth_zupd by lia.
      destruct (Z.eqb_spec k i) as [->|]; [now rewrite E1|]. apply HR. lia.
    + intros k Hk. rewrite znth_zupd by (rewrite zlen_zupd; lia). destruct (Z.eqb_spec (sz + k) (sz + (i - 2))) as [E|E].
      * replace k with (i - 2) by lia. now rewrite E2.
      * rewrite znth_zupd by lia. replace (sz + k =? i) with false by lia. apply HS. lia.
  - cbn [bind]. rewrite (oget_ok _ _ _ (HR (sz - 1) ltac:(lia))). cbn [bind].
    assert (E1 : rho r (Z.to_nat sz) = fst (tp (rho r (Z.to_nat (sz - 1))) r)).
    { replace (Z.to_nat sz) with (S (S (Z.to_nat (sz - 2)))) by lia. rewrite rho_SS. replace (S (Z.to_nat (sz - 2))) with (Z.to_nat (sz - 1)) by lia. reflexivity. }
    assert (E2 : sg r (Z.to_nat (sz - 2)) = snd (tp (rho r (Z.to_nat (sz - 1))) r)).
    { unfold sg. replace (S (Z.to_nat (sz - 2))) with (Z.to_nat (sz - 1)) by lia. reflexivity. }
    destruct (tp (rho r (Z.to_nat (sz - 1))) r) as [rm sm]. cbn [fst snd] in E1, E2. rewrite oset_ok by lia. cbn [bind].
    assert (E3 : rho r (Z.to_nat (sz + 1)) = fst (tp rm r)).
    { rewrite <- E1. replace (Z.to_nat (sz + 1)) with (S (S (Z.to_nat (sz - 1)))) by lia. rewrite rho_SS. replace (S (Z.to_nat (sz - 1))) with (Z.to_nat sz) by lia. reflexivity. }
    assert (E4 : sg r (Z.to_nat (sz - 1)) = snd (tp rm r)).
    { rewrite <- E1. unfold sg. replace (S (Z.to_nat (sz - 1))) with (Z.to_nat sz) by lia. reflexivity. }
    replace (Z.to_nat (sz + 1) - 1)%nat with (Z.to_nat sz) by lia.
    destruct (tp rm r) as [rn sn]. cbn [fst snd] in E3, E4. rewrite oset_ok by (rewrite zlen_zupd; lia). cbn [bind].
    rewrite (for_list0 (zseq 0 (Z.to_nat sz)) sz _ (fun s i => nadd N s (nmul N (rho r (Z.to_nat i)) (sg r (Z.to_nat (sz - 1 - i)))))).
    2:{ rewrite zlen_zseq. lia. }
    2:{ intros i x' u Hi. pose proof (znth_lt _ _ _ Hi) as HB. rewrite zlen_zseq in HB. rewrite znth_zseq in Hi by lia. injection Hi as Hi. cbn [Z.add] in Hi. subst x'.
        rewrite (oget_ok _ _ (rho r (Z.to_nat i))).
        2:{ rewrite znth_zupd by (rewrite zlen_zupd; lia). replace (i =? sz + (sz - 1)) with false by lia. rewrite znth_zupd by lia. replace (i =? sz + (sz - 2)) with false by lia. apply HR. lia. }
        cbn [bind]. rewrite (oget_ok _ _ (sg r (Z.to_nat (sz - 1 - i)))); [reflexivity|].
        rewrite znth_zupd by (rewrite zlen_zupd; lia). destruct (Z.eqb_spec (sz + (sz - 1 - i)) (sz + (sz - 1))) as [E|E]; [replace (sz - 1 - i) with (sz - 1) by lia; now rewrite E4|].
        rewrite znth_zupd by lia. destruct (Z.eqb_spec (sz + (sz - 1 - i)) (sz + (sz - 2))) as [E'|E']; [replace (sz - 1 - i) with (sz - 2) by lia; now rewrite E2|]. apply HS. lia. }
    cbn [bind]. rewrite E1, E3. unfold sum_loc. replace (sz + 1 - 1) with sz by lia. destruct b; [reflexivity|]. destruct (tp rn x). reflexivity.
Qed.
Lemma pow_negative x p : p < 0 -> checked c = true -> pow_prods_tp N c tp x p = Fail (report c).
Proof. intros HP HC. unfold pow_prods_tp. replace (-1 <? p) with false by lia. now rewrite check_debug_false. Qed.
Lemma pow_too_long x p : 6 <= p <= LONG_MAX -> amax c < 2 * (p / 2 - 1) -> pow_prods_tp N c tp x p = Fail BadAlloc.
Proof.
  intros HP HM. unfold pow_prods_tp. replace (-1 <? p) with true by lia. rewrite check_debug_true. cbn [bind].
  replace (p =? 0) with false by lia. replace (p =? 1) with false by lia. replace (p =? 2) with false by lia. replace (p =? 3) with false by lia. replace (p =? 4) with false by lia. replace (p =? 5) with false by lia.
  destruct (tp x x) as [r s]. replace (Z.quot p 2) with (p / 2) by (symmetry; apply Z.quot_div_nonneg; lia).
  rewrite lsub_ok by (unfold LONG_MIN, LONG_MAX in *; lia). cbn [bind]. rewrite lmul_ok by (unfold LONG_MIN, LONG_MAX in *; lia). cbn [bind].
  unfold alloc. replace ((2 * (p / 2 - 1) <? 0) || (amax c <? 2 * (p / 2 - 1))) with true by lia. reflexivity.
Qed.
End VALUE.

Section IDEAL.
Context {V : Type} (N : num V) (c : cfg) (tp : V -> V -> V * V).
Hypothesis HX : exact_num N.
Let RT := ex_ring N HX.
Add Ring NR : RT.
Hypothesis TP : forall a b, nadd N (fst (tp a b)) (snd (tp a b)) = nmul N a b.
Context (J : V -> Prop).
Hypothesis HJ : ideal N J.
Hypothesis JR : forall a b a' b', J (nmul N (snd (tp a b)) (snd (tp a' b'))).
Notation "x + y" := (nadd N x y).
Notation "x * y" := (nmul N x y).
Notation "x - y" := (nsub N x y).
Notation "- x" := (nneg N x).
Notation O0 := (nzero N).
Notation I1 := (none_ N).
Notation pw := (power (none_ N) (nmul N)).

Inductive inI : V -> Prop :=
| I_res a b : inI (snd (tp a b))
| I_zero : inI O0
| I_add a b : inI a -> inI b -> inI (a + b)
| I_mul a b : inI a -> inI (a * b).
Lemma J_zero : J O0. Proof. apply HJ. Qed.
Lemma J_add a b : J a -> J b -> J (a + b). Proof. apply HJ. Qed.
Lemma J_mul a b : J a -> J (a * b). Proof. apply HJ. Qed.
Lemma J_eq a b : J a -> a = b -> J b. Proof. now intros H <-. Qed.
Lemma II_J a b : inI a -> inI b -> J (a * b).
Proof.
  intros Ha Hb. induction Ha as [a1 a2| |a1 a2 _ IH1 _ IH2|a1 a2 _ IH].
  - induction Hb as [b1 b2| |b1 b2 _ IH1 _ IH2|b1 b2 _ IH].
    + apply JR.
    + eapply J_eq; [apply J_zero|ring].
    + eapply J_eq; [apply (J_add _ _ IH1 IH2)|ring].
    + eapply J_eq; [apply (J_mul _ b2 IH)|ring].
  - eapply J_eq; [apply J_zero|ring].
  - eapply J_eq; [apply (J_add _ _ IH1 IH2)|ring].
  - eapply J_eq; [apply (J_mul _ a2 IH)|ring].
Qed.
Definition eqJ a b := J (a - b).
Lemma eqJ_refl a : eqJ a a. Proof. eapply J_eq; [apply J_zero|ring]. Qed.
Lemma eqJ_add a b a' b' : eqJ a a' -> eqJ b b' -> eqJ (a + b) (a' + b').
Proof. intros H1 H2. eapply J_eq; [apply (J_add _ _ H1 H2)|ring]. Qed.
Lemma eqJ_mul a a' b : eqJ a a' -> eqJ (a * b) (a' * b).
Proof. intros H. eapply J_eq; [apply (J_mul _ b H)|ring]. Qed.
Lemma eqJ_trans a b d : eqJ a b -> eqJ b d -> eqJ a d.
Proof. intros H1 H2. eapply J_eq; [apply (J_add _ _ H1 H2)|ring]. Qed.

(** r^k = rho k + sum of sg j r^(k-2-j): written as a recursion. *)
Fixpoint drift (r : V) (k : nat) : V :=
  match k with
  | O => O0
  | S k' => match k' with O => O0 | S k'' => drift r k' * r + sg N tp r k'' end
  end.
Lemma drift_SS r k : drift r (S (S k)) = drift r (S k) * r + sg N tp r k.
Proof. reflexivity. Qed.
Lemma rho_drift r k : pw r k = rho N tp r k + drift r k.
Proof.
  induction k as [|k IH]; [cbn; ring|]. destruct k as [|k]; [cbn; ring|].
  rewrite rho_SS, drift_SS. change (pw r (S (S k))) with (r * pw r (S k)). rewrite IH. unfold sg.
  pose proof (TP (rho N tp r (S k)) r) as T. replace (r * (rho N tp r (S k) + drift r (S k))) with (rho N tp r (S k) * r + drift r (S k) * r) by ring. rewrite <- T. ring.
Qed.
Lemma drift_I r k : inI (drift r k).
Proof.
  induction k as [|k IH]; [apply I_zero|]. destruct k as [|k]; [apply I_zero|]. rewrite drift_SS. apply I_add; [now apply I_mul|apply I_res].
Qed.
(** sum_loc for n-1 = S m terms in ascending recursion. *)
Fixpoint locsum (r : V) (n : nat) (k : nat) : V :=
  match k with O => O0 | S k' => locsum r n k' + rho N tp r k' * sg N tp r (n - k') end.
(** The drift with exact powers in place of rounded ones. *)
Fixpoint powsum (r : V) (n : nat) (k : nat) : V :=
  match k with O => O0 | S k' => powsum r n k' + pw r k' * sg N tp r (n - k') end.
Lemma powsum_loc r n k : eqJ (powsum r n k) (locsum r n k).
Proof.
  induction k as [|k IH]; [apply eqJ_refl|]. cbn [powsum locsum]. apply eqJ_add; [exact IH|]. rewrite rho_drift.
  eapply J_eq; [apply (II_J (drift r k) (sg N tp r (n - k)) (drift_I r k)); apply I_res|ring].
Qed.
Lemma powsum_shift r n k : powsum r (S n) (S k) = powsum r n k * r + sg N tp r (S n).
Proof.
  induction k as [|k IH].
  - cbn. ring.
  - change (powsum r (S n) (S (S k))) with (powsum r (S n) (S k) + pw r (S k) * sg N tp r (S n - S k)). rewrite IH.
    change (powsum r n (S k)) with (powsum r n k + pw r k * sg N tp r (n - k)). change (S n - S k)%nat with (n - k)%nat.
    change (pw r (S k)) with (r * pw r k). ring.
Qed.
Lemma drift_powsum r n : drift r (S (S n)) = powsum r n (S n).
Proof.
  induction n as [|n IH]; [cbn; ring|]. rewrite drift_SS, IH. rewrite powsum_shift.
  reflexivity.
Qed.
Lemma sum_loc_locsum r n : sum_loc N tp r (Z.of_nat (S n)) = locsum r n (S n).
Proof.
  unfold sum_loc. rewrite Nat2Z.id.
  assert (G : forall k, (k <= S n)%nat -> fold_left (fun s i => s + rho N tp r (Z.to_nat i) * sg N tp r (Z.to_nat (Z.of_nat (S n) - 1 - i)%Z)) (zseq 0 k) O0 = locsum r n k).
  { induction k as [|k IHk]; intros Hk; [reflexivity|]. rewrite zseq_S, fold_left_app, IHk by lia. cbn [fold_left locsum]. rewrite Z.add_0_l, Nat2Z.id.
    replace (Z.to_nat (Z.of_nat (S n) - 1 - Z.of_nat k)%Z) with (n - k)%nat by lia. reflexivity. }
  apply G. lia.
Qed.
Lemma nofZ_S n : nofZ N (Z.of_nat (S n)) = nofZ N (Z.of_nat n) + I1.
Proof. rewrite <- (ex_ofS N HX) by lia. f_equal. lia. Qed.
Lemma binom_J r s n : J (s * s) -> eqJ (pw (r + s) (S n)) (pw r (S n) + nofZ N (Z.of_nat (S n)) * pw r n * s).
Proof.
  intros HS. induction n as [|n IH].
  - change (Z.of_nat 1) with (0 + 1)%Z. rewrite (ex_ofS N HX), (ex_of0 N HX) by lia. cbn. eapply J_eq; [apply J_zero|ring].
  - change (pw (r + s) (S (S n))) with ((r + s) * pw (r + s) (S n)).
    replace ((r + s) * pw (r + s) (S n)) with (pw (r + s) (S n) * (r + s)) by ring.
    eapply eqJ_trans.
    + apply (eqJ_mul _ _ (r + s) IH).
    + rewrite (nofZ_S (S n)). change (pw r (S (S n))) with (r * pw r (S n)). change (pw r (S n)) with (r * pw r n).
      eapply J_eq; [apply (J_mul _ (nofZ N (Z.of_nat (S n)) * pw r n) HS)|ring].
Qed.
Lemma pw_square x n : pw x (n + n) = pw (x * x) n.
Proof. induction n as [|n IH]; [reflexivity|]. replace (S n + S n)%nat with (S (S (n + n))) by lia. cbn [power]. rewrite IH. ring. Qed.

Lemma even_part x n : (2 <= n)%nat ->
  let r := fst (tp x x) in let s := snd (tp x x) in
  eqJ (pw x (n + n)) (rho N tp r n + (nofZ N (Z.of_nat n) * rho N tp r (n - 1) * s + sum_loc N tp r (Z.of_nat n - 1))).
Proof.
  intros Hn r s. rewrite pw_square, <- TP. fold r s. destruct n as [|[|m]]; [lia|lia|]. replace (S (S m) - 1)%nat with (S m) by lia.
  replace (Z.of_nat (S (S m)) - 1)%Z with (Z.of_nat (S m)) by lia. rewrite sum_loc_locsum.
  eapply eqJ_trans; [apply binom_J; apply JR|].
  assert (E1 : eqJ (pw r (S (S m))) (rho N tp r (S (S m)) + locsum r m (S m))).
  { rewrite rho_drift, drift_powsum. apply eqJ_add; [apply eqJ_refl|apply powsum_loc]. }
  assert (E2 : eqJ (nofZ N (Z.of_nat (S (S m))) * pw r (S m) * s) (nofZ N (Z.of_nat (S (S m))) * rho N tp r (S m) * s)).
  { rewrite rho_drift. eapply J_eq; [apply (J_mul _ (nofZ N (Z.of_nat (S (S m)))) (II_J _ _ (drift_I r (S m)) (I_res x x)))|fold s; ring]. }
  eapply eqJ_trans; [apply (eqJ_add _ _ _ _ E1 E2)|]. eapply J_eq; [apply J_zero|ring].
Qed.

Theorem pow_ideal x p : 0 <= p <= LONG_MAX -> 2 * (p / 2 - 1) <= amax c \/ p < 6 ->
  exists r s, pow_prods_tp N c tp x p = Ok (r, s) /\ J (pw x (Z.to_nat p) - (r + s)).
Proof.
  intros HP HM. destruct (Z_lt_le_dec p 6) as [L|L].
  - assert (HC : p = 0 \/ p = 1 \/ p = 2 \/ p = 3 \/ p = 4 \/ p = 5) by lia. clear HP HM L.
    unfold pow_prods_tp.
    destruct HC as [->|[->|[->|[->|[->| ->]]]]]; cbn [Z.ltb Z.eqb Z.compare Pos.compare Pos.compare_cont Pos.eqb]; rewrite check_debug_true; cbn [bind].
    + do 2 eexists. split; [reflexivity|]. eapply J_eq; [apply J_zero|cbn; ring].
    + do 2 eexists. split; [reflexivity|]. change (pw x (Z.to_nat 1)) with (x * I1). eapply J_eq; [apply J_zero|ring].
    + pose proof (TP x x) as T. destruct (tp x x) as [r s]. do 2 eexists. split; [reflexivity|]. cbn [fst snd] in T. eapply J_eq; [apply J_zero|]. rewrite T. change (pw x (Z.to_nat 2)) with (x * (x * I1)). ring.
    + pose proof (TP x x) as T. destruct (tp x x) as [r s]. cbn [fst snd] in T. pose proof (TP r x) as T2. destruct (tp r x) as [r1 s1]. cbn [fst snd] in T2. do 2 eexists. split; [reflexivity|]. eapply J_eq; [apply J_zero|].
      change (pw x (Z.to_nat 3)) with (x * (x * (x * I1))). replace (x * (x * (x * I1))) with (x * (x * x)) by ring. rewrite <- T. replace (r1 + (x * s + s1)) with (r1 + s1 + x * s) by ring. rewrite T2. ring.
    + pose proof (TP x x) as T. pose proof (JR x x x x) as JS. destruct (tp x x) as [r s]. cbn [fst snd] in T, JS. pose proof (TP r r) as T2. destruct (tp r r) as [r2 s2]. cbn [fst snd] in T2. do 2 eexists. split; [reflexivity|].
      replace (nofZ N 2) with (I1 + I1). 2:{ change 2 with (0 + 1 + 1)%Z. rewrite !(ex_ofS N HX), (ex_of0 N HX) by lia. ring. }
      change (pw x (Z.to_nat 4)) with (x * (x * (x * (x * I1)))). replace (x * (x * (x * (x * I1)))) with ((x * x) * (x * x)) by ring. rewrite <- T. replace (r2 + ((I1 + I1) * r * s + s2)) with (r2 + s2 + (I1 + I1) * r * s) by ring. rewrite T2. eapply J_eq; [exact JS|ring].
    + pose proof (TP x x) as T. pose proof (JR x x x x) as JS. destruct (tp x x) as [r s]. cbn [fst snd] in T, JS. pose proof (TP r r) as T2. destruct (tp r r) as [r2 s2]. cbn [fst snd] in T2. pose proof (TP r2 x) as T3. destruct (tp r2 x) as [r3 s3]. cbn [fst snd] in T3. do 2 eexists. split; [reflexivity|].
      replace (nofZ N 2) with (I1 + I1). 2:{ change 2 with (0 + 1 + 1)%Z. rewrite !(ex_ofS N HX), (ex_of0 N HX) by lia. ring. }
      change (pw x (Z.to_nat 5)) with (x * (x * (x * (x * (x * I1))))). replace (x * (x * (x * (x * (x * I1))))) with ((x * x) * (x * x) * x) by ring. rewrite <- T. replace (r3 + ((I1 + I1) * x * r * s + x * s2 + s3)) with (r3 + s3 + (I1 + I1) * x * r * s + x * s2) by ring. rewrite T3.
      replace ((r + s) * (r + s) * x) with (x * (r * r) + (I1 + I1) * x * r * s + x * (s * s)) by ring. rewrite <- T2. eapply J_eq; [apply (J_mul _ x JS)|ring].
  - destruct HM as [HM|HM]; [|lia]. rewrite pow_value by lia. pose proof (even_part x (Z.to_nat (p / 2)) ltac:(lia)) as HE. cbn zeta in HE.
    rewrite Z2Nat.id in HE by lia. set (m := Z.to_nat (p / 2)) in *. 
    destruct (tp x x) as [r s]. cbn [fst snd] in HE. cbn zeta. destruct (Z.eqb_spec (p mod 2) 0) as [E|E].
    + do 2 eexists. split; [reflexivity|]. replace (Z.to_nat p) with (m + m)%nat by (subst m; lia). exact HE.
    + fold m. pose proof (TP (rho N tp r m) x) as T. destruct (tp (rho N tp r m) x) as [q t]. cbn [fst snd] in T. do 2 eexists. split; [reflexivity|].
      replace (Z.to_nat p) with (S (m + m))%nat by (subst m; lia). change (pw x (S (m + m))) with (x * pw x (m + m)).
      eapply J_eq; [apply (eqJ_mul _ _ x HE)|].
      replace (q + (nofZ N (p / 2) * x * rho N tp r (m - 1) * s + x * sum_loc N tp r (p / 2 - 1)%Z + t)) with
        (q + t + (nofZ N (p / 2) * x * rho N tp r (m - 1) * s + x * sum_loc N tp r (p / 2 - 1)%Z)) by ring. rewrite T. ring.
Qed.
End IDEAL.
Lemma pow_exact {V} (N : num V) c x p : exact_num N -> 0 <= p <= LONG_MAX -> 2 * (p / 2 - 1) <= amax c \/ p < 6 ->
  exists r s, pow_prods N c x p = Ok (r, s) /\ nadd N r s = power (none_ N) (nmul N) x (Z.to_nat p).
Proof.
  intros HX HP HM. pose proof (ex_ring N HX) as RT.
  destruct (pow_ideal N c (two_prods N) HX) with (J := fun v => v = nzero N) (x := x) (p := p) as (r & s & E & HJ); try assumption.
  - intros a b. rewrite two_prods_exact by assumption. cbn [fst snd]. rewrite (Radd_comm RT). apply (Radd_0_l RT).
  - split; [reflexivity|]. split; [intros a b -> ->; apply (Radd_0_l RT)|]. intros a b ->. apply (ARmul_0_l (Rth_ARth (Eqsth V) (Eq_ext _ _ _) RT)).
  - intros a b a' b'. rewrite (two_prods_exact N HX a b). cbn [snd]. apply (ARmul_0_l (Rth_ARth (Eqsth V) (Eq_ext _ _ _) RT)).
  - exists r, s. split; [exact E|]. rewrite (Rsub_def RT) in HJ. set (P := power _ _ _ _) in *. rewrite <- (Radd_0_l RT (nadd N r s)), <- HJ, <- (Radd_assoc RT), (Radd_comm RT (nneg N _)), (Ropp_def RT), (Radd_comm RT). apply (Radd_0_l RT).
Qed.
