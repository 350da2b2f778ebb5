(** Outcomes of C++ computations, build configurations and the assertion macros. *)
From Coq Require Export ZArith List Bool Lia.
From Coq Require Export ZifyBool ZifyNat.
Export ListNotations.
#[global] Open Scope Z_scope.

(** How an error is reported.  [Throw]: a StrictException; [Abort]: a failed [assert];
    [Terminate]: an exception that leaves a noexcept function; [BadAlloc]: operator new failed. *)
Inductive failure := Throw | Abort | Terminate | BadAlloc.

(** Result of running a piece of code: normal return, reported error, or undefined behaviour. *)
Inductive outcome (A : Type) : Type :=
| Ok (a : A)
| Fail (f : failure)
| UB.
Arguments Ok {A} a.
Arguments Fail {A} f.
Arguments UB {A}.

Definition bind {A B} (m : outcome A) (k : A -> outcome B) : outcome B :=
  match m with
  | Ok a => k a
  | Fail f => Fail f
  | UB => UB
  end.

Definition omap {A B} (f : A -> B) (m : outcome A) : outcome B := bind m (fun a => Ok (f a)).

Notation "x <- m ;; k" := (bind m (fun x => k))
  (at level 61, m at next level, right associativity).
Notation "' p <- m ;; k" := (bind m (fun p => k))
  (at level 61, p pattern, m at next level, right associativity).
Notation "m ;;; k" := (bind m (fun _ => k)) (at level 61, right associativity).

(** Build configuration (StrictCommon/config.hpp, StrictCommon/error.hpp).
    [dbg]  : STRICT_DEBUG_OFF is not defined;
    [exc]  : STRICT_ERROR_EXCEPTIONS is defined;
    [ndbg] : NDEBUG is defined (assert expands to nothing);
    [amax] : largest element count for which operator new[] succeeds. *)
Record cfg := mkcfg { dbg : bool; exc : bool; ndbg : bool; amax : Z }.

(** LONG_MAX / LONG_MIN of the modelled (LP64) platforms. *)
Definition LONG_MAX : Z := 9223372036854775807.
Definition LONG_MIN : Z := -9223372036854775808.

(** A request for more bytes than PTRDIFF_MAX always fails, so a real allocator limit is at most LONG_MAX elements. *)
Definition cfg_ok (c : cfg) : Prop := 0 <= amax c <= LONG_MAX.

(** StrictCommon/error.hpp lines 62-82, ASSERT_STRICT_ALWAYS: with STRICT_ERROR_EXCEPTIONS it throws; otherwise it
    prints a stack trace and calls assert, which is empty under NDEBUG (execution then continues). *)
Definition check_always (c : cfg) (b : bool) : outcome unit :=
  if b then Ok tt
  else if exc c then Fail Throw
  else if ndbg c then Ok tt
  else Fail Abort.

(** StrictCommon/error.hpp lines 86-94, ASSERT_STRICT_DEBUG: not even evaluated under STRICT_DEBUG_OFF.
    The condition is an [outcome bool] because evaluating it can itself overflow. *)
Definition check_debug (c : cfg) (b : outcome bool) : outcome unit :=
  if dbg c then b' <- b ;; check_always c b' else Ok tt.

(** StrictCommon/error.hpp lines 44-58, NORMAL_ASSERT_STRICT_DEBUG: assert only, never throws. *)
Definition check_normal (c : cfg) (b : outcome bool) : outcome unit :=
  if dbg c then b' <- b ;; (if b' then Ok tt else if ndbg c then Ok tt else Fail Abort) else Ok tt.

(** The configurations in which a violated ASSERT_STRICT_DEBUG stops the operation. *)
Definition checked (c : cfg) : bool := dbg c && (exc c || negb (ndbg c)).

(** The failure such a check produces. *)
Definition report (c : cfg) : failure := if exc c then Throw else Abort.

(** An exception propagating out of a noexcept function calls std::terminate. *)
Definition noexcept {A} (m : outcome A) : outcome A :=
  match m with
  | Fail Throw | Fail BadAlloc => Fail Terminate
  | r => r
  end.

(** 64-bit signed arithmetic of index_t = Strict<long int> (StrictCommon/strict_val.hpp lines 382-413);
    results outside the range are undefined behaviour. *)
Definition in_long (z : Z) : bool := (LONG_MIN <=? z) && (z <=? LONG_MAX).
Definition lret (z : Z) : outcome Z := if in_long z then Ok z else UB.
Definition ladd (x y : Z) : outcome Z := lret (x + y).
Definition lsub (x y : Z) : outcome Z := lret (x - y).
Definition lmul (x y : Z) : outcome Z := lret (x * y).
(** operator/ on index_t (strict_val.hpp lines 400-406) with its zero check. *)
Definition ldiv (c : cfg) (x y : Z) : outcome Z :=
  check_debug c (Ok (negb (y =? 0))) ;;; if y =? 0 then UB else lret (Z.quot x y).
(** operator% on index_t (strict_val.hpp lines 409-413); x % y is undefined when x / y is not representable. *)
Definition lmod (c : cfg) (x y : Z) : outcome Z :=
  check_debug c (Ok (negb (y =? 0))) ;;;
  if y =? 0 then UB else if in_long (Z.quot x y) then Ok (Z.rem x y) else UB.

(** operator&& and operator|| on StrictBool are functions: both operands are evaluated (strict_val.hpp lines 461-470). *)
Definition oand (a b : outcome bool) : outcome bool := x <- a ;; y <- b ;; Ok (x && y).
Definition oor (a b : outcome bool) : outcome bool := x <- a ;; y <- b ;; Ok (x || y).

(** [for(i = lo; i < hi; ++i) s = body(i, s)].  The increment cannot overflow because i < hi. *)
Fixpoint for_loop {S} (k : nat) (i : Z) (body : Z -> S -> outcome S) (s : S) : outcome S :=
  match k with
  | O => Ok s
  | Datatypes.S k' => s' <- body i s ;; for_loop k' (i + 1) body s'
  end.
Definition for_ {S} (lo hi : Z) (body : Z -> S -> outcome S) (s : S) : outcome S :=
  for_loop (Z.to_nat (hi - lo)) lo body s.

(** A mutating operation: the object survives a failure (in the state the code left it in). *)
Inductive mut (S : Type) : Type :=
| MOk (s : S)
| MFail (f : failure) (s : S)
| MUB.
Arguments MOk {S} s.
Arguments MFail {S} f s.
Arguments MUB {S}.

(** Functions that build a new object first and only then overwrite the old one. *)
Definition commit {S} (old : S) (m : outcome S) : mut S :=
  match m with
  | Ok s => MOk s
  | Fail f => MFail f old
  | UB => MUB
  end.

Definition mbind {S T} (m : mut S) (k : S -> mut T) (lift : S -> T) : mut T :=
  match m with
  | MOk s => k s
  | MFail f s => MFail f (lift s)
  | MUB => MUB
  end.
Definition mseq {S} (m : mut S) (k : S -> mut S) : mut S := mbind m k (fun s => s).

(** In-place loop: a failing iteration keeps the effects of the previous ones. *)
Fixpoint mfor_loop {S} (k : nat) (i : Z) (body : Z -> S -> mut S) (s : S) : mut S :=
  match k with
  | O => MOk s
  | Datatypes.S k' => mseq (body i s) (mfor_loop k' (i + 1) body)
  end.
Definition mfor {S} (lo hi : Z) (body : Z -> S -> mut S) (s : S) : mut S :=
  mfor_loop (Z.to_nat (hi - lo)) lo body s.

(** ** Facts *)

Lemma bind_ok {A B} (a : A) (k : A -> outcome B) : bind (Ok a) k = k a.
Proof. reflexivity. Qed.

Lemma check_always_true c : check_always c true = Ok tt.
Proof. reflexivity. Qed.

Lemma check_debug_true c : check_debug c (Ok true) = Ok tt.
Proof. unfold check_debug; destruct (dbg c); reflexivity. Qed.

Lemma check_normal_true c : check_normal c (Ok true) = Ok tt.
Proof. unfold check_normal; destruct (dbg c); reflexivity. Qed.

Lemma check_debug_false c : checked c = true -> check_debug c (Ok false) = Fail (report c).
Proof.
  unfold checked, check_debug, check_always, report.
  destruct (dbg c), (exc c), (ndbg c); simpl; congruence.
Qed.

Lemma check_debug_ub c : checked c = true -> check_debug c UB = UB.
Proof. unfold checked, check_debug. destruct (dbg c); simpl; congruence. Qed.

Lemma check_debug_off c b : dbg c = false -> check_debug c b = Ok tt.
Proof. unfold check_debug. intros ->. reflexivity. Qed.

Lemma check_debug_cases c b :
  (check_debug c (Ok b) = Ok tt /\ (b = true \/ checked c = false)) \/
  (check_debug c (Ok b) = Fail (report c) /\ b = false /\ checked c = true).
Proof.
  unfold checked, check_debug, check_always, report.
  destruct b, (dbg c), (exc c), (ndbg c); simpl; auto.
Qed.

Lemma in_long_true z : LONG_MIN <= z <= LONG_MAX -> in_long z = true.
Proof. unfold in_long. lia. Qed.

Lemma in_long_spec z : in_long z = true <-> LONG_MIN <= z <= LONG_MAX.
Proof. unfold in_long. lia. Qed.

Lemma lret_ok z : LONG_MIN <= z <= LONG_MAX -> lret z = Ok z.
Proof. intros H. unfold lret. now rewrite in_long_true. Qed.

Lemma lret_ub z : ~ (LONG_MIN <= z <= LONG_MAX) -> lret z = UB.
Proof.
  intros H. unfold lret. destruct (in_long z) eqn:E; [|reflexivity].
  apply in_long_spec in E. contradiction.
Qed.

Lemma ladd_ok x y : LONG_MIN <= x + y <= LONG_MAX -> ladd x y = Ok (x + y).
Proof. apply lret_ok. Qed.
Lemma lsub_ok x y : LONG_MIN <= x - y <= LONG_MAX -> lsub x y = Ok (x - y).
Proof. apply lret_ok. Qed.
Lemma lmul_ok x y : LONG_MIN <= x * y <= LONG_MAX -> lmul x y = Ok (x * y).
Proof. apply lret_ok. Qed.

Lemma ldiv_ok c x y : y <> 0 -> LONG_MIN <= Z.quot x y <= LONG_MAX -> ldiv c x y = Ok (Z.quot x y).
Proof.
  intros Hy H. unfold ldiv. replace (y =? 0) with false by lia. simpl.
  rewrite check_debug_true. simpl. now apply lret_ok.
Qed.

Lemma lmod_ok c x y : y <> 0 -> LONG_MIN <= Z.quot x y <= LONG_MAX -> lmod c x y = Ok (Z.rem x y).
Proof.
  intros Hy H. unfold lmod. replace (y =? 0) with false by lia. simpl.
  rewrite check_debug_true. simpl. now rewrite in_long_true.
Qed.

Lemma for_loop_zero {S} i (body : Z -> S -> outcome S) s : for_loop 0 i body s = Ok s.
Proof. reflexivity. Qed.

(** Invariant rule for loops that do not fail. *)
Lemma for_loop_inv {S} (P : Z -> S -> Prop) k lo body s :
  P lo s ->
  (forall i s, lo <= i < lo + Z.of_nat k -> P i s -> exists s', body i s = Ok s' /\ P (i + 1) s') ->
  exists s', for_loop k lo body s = Ok s' /\ P (lo + Z.of_nat k) s'.
Proof.
  revert lo s. induction k as [|k IH]; intros lo s H0 Hstep.
  - exists s. simpl. split; [reflexivity|]. now replace (lo + 0) with lo by lia.
  - cbn [for_loop]. destruct (Hstep lo s) as (s1 & E1 & P1); [lia|assumption|].
    rewrite E1. cbn [bind].
    destruct (IH (lo + 1) s1 P1) as (s2 & E2 & P2).
    + intros i t Hi Pi. apply Hstep; [lia|assumption].
    + exists s2. split; [exact E2|]. now replace (lo + Z.of_nat (Datatypes.S k)) with (lo + 1 + Z.of_nat k) by lia.
Qed.

Lemma for_inv {S} (P : Z -> S -> Prop) lo hi body s :
  lo <= hi -> P lo s ->
  (forall i s, lo <= i < hi -> P i s -> exists s', body i s = Ok s' /\ P (i + 1) s') ->
  exists s', for_ lo hi body s = Ok s' /\ P hi s'.
Proof.
  intros Hle H0 Hstep. unfold for_.
  destruct (for_loop_inv P (Z.to_nat (hi - lo)) lo body s H0) as (s' & E & Hs').
  - intros i t Hi. apply Hstep. lia.
  - exists s'. split; [exact E|]. now replace hi with (lo + Z.of_nat (Z.to_nat (hi - lo))) by lia.
Qed.

Lemma for_empty {S} lo hi (body : Z -> S -> outcome S) s : hi <= lo -> for_ lo hi body s = Ok s.
Proof. intros H. unfold for_. now replace (Z.to_nat (hi - lo)) with O by lia. Qed.

Lemma for_step {S} lo hi (body : Z -> S -> outcome S) s :
  lo < hi -> for_ lo hi body s = (s' <- body lo s ;; for_ (lo + 1) hi body s').
Proof.
  intros H. unfold for_. replace (Z.to_nat (hi - lo)) with (Datatypes.S (Z.to_nat (hi - (lo + 1)))) by lia.
  reflexivity.
Qed.

Lemma for_loop_ext {S} k lo (b1 b2 : Z -> S -> outcome S) s :
  (forall i s, lo <= i < lo + Z.of_nat k -> b1 i s = b2 i s) -> for_loop k lo b1 s = for_loop k lo b2 s.
Proof.
  revert lo s. induction k as [|k IH]; intros lo s H; [reflexivity|].
  cbn [for_loop]. rewrite H by lia. destruct (b2 lo s); cbn [bind]; auto.
  apply IH. intros i t Hi. apply H. lia.
Qed.

Lemma for_ext {S} lo hi (b1 b2 : Z -> S -> outcome S) s :
  (forall i s, lo <= i < hi -> b1 i s = b2 i s) -> for_ lo hi b1 s = for_ lo hi b2 s.
Proof.
  intros H. apply for_loop_ext. intros i t Hi. apply H. lia.
Qed.

Lemma mfor_loop_inv {S} (P : Z -> S -> Prop) k lo body s :
  P lo s ->
  (forall i s, lo <= i < lo + Z.of_nat k -> P i s -> exists s', body i s = MOk s' /\ P (i + 1) s') ->
  exists s', mfor_loop k lo body s = MOk s' /\ P (lo + Z.of_nat k) s'.
Proof.
  revert lo s. induction k as [|k IH]; intros lo s H0 Hstep.
  - exists s. simpl. split; [reflexivity|]. now replace (lo + 0) with lo by lia.
  - cbn [mfor_loop]. destruct (Hstep lo s) as (s1 & E1 & P1); [lia|assumption|].
    rewrite E1. cbn [mseq mbind].
    destruct (IH (lo + 1) s1 P1) as (s2 & E2 & P2).
    + intros i t Hi Pi. apply Hstep; [lia|assumption].
    + exists s2. split; [exact E2|]. now replace (lo + Z.of_nat (Datatypes.S k)) with (lo + 1 + Z.of_nat k) by lia.
Qed.
Lemma mfor_inv {S} (P : Z -> S -> Prop) lo hi body s :
  lo <= hi -> P lo s ->
  (forall i s, lo <= i < hi -> P i s -> exists s', body i s = MOk s' /\ P (i + 1) s') ->
  exists s', mfor lo hi body s = MOk s' /\ P hi s'.
Proof.
  intros Hle H0 Hstep. unfold mfor.
  destruct (mfor_loop_inv P (Z.to_nat (hi - lo)) lo body s H0) as (s' & E & Hs').
  - intros i t Hi. apply Hstep. lia.
  - exists s'. split; [exact E|]. now replace hi with (lo + Z.of_nat (Z.to_nat (hi - lo))) by lia.
Qed.
