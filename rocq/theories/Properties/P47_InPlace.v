(** C93: operators that change scalar variables, inside larger expressions. *)
From Verif Require Import Base.Outcome Model.IntModel Model.InPlace Spec.Configs Spec.InPlaceSpec Proofs.InPlaceProofs.

(** An expression in which no operand of + - * / % & | ^ changes a variable the other one uses has the same value and the same effect
    in whatever order the compiler evaluates; << >> = and op= need no such condition. *)
Theorem C93_order : forall (c : cfg) (t : ity) e o s s1 v, separate e -> runv c t o e s = RV s1 v ->
  forall o', exists s2, runv c t o' e s = RV s2 v /\ same_store s1 s2.
Proof. exact (fun c t e o s s1 v => order_free c t e o s s1 v). Qed.
Print Assumptions C93_order.
(** What that value and effect are: the operands one after the other, then the operator. *)
Theorem C93_operands : forall (c : cfg) (t : ity) op e1 e2 o1 o2 s s1 s2 x y v, separate (Bin op e1 e2) ->
  runv c t o1 e1 s = RV s1 x -> runv c t o2 e2 s1 = RV s2 y -> bapply c t op x y = Ok v ->
  forall o, exists s3, runv c t o (Bin op e1 e2) s = RV s3 v /\ same_store s2 s3.
Proof. exact (fun c t op e1 e2 o1 o2 s s1 s2 x y v => operands c t op e1 e2 o1 o2 s s1 s2 x y v). Qed.
Print Assumptions C93_operands.
(** The operators compute what their names say. *)
Theorem C93_operators : forall (c : cfg) (t : ity) op x y v, bapply c t op x y = Ok v -> computed t op x y v.
Proof. exact (fun c t op x y v => bapply_computed c t op x y v). Qed.
Print Assumptions C93_operators.
(** x = e: e is evaluated, with its effects, then x gets its value; likewise x = y, where y may be changed on the way. *)
Theorem C93_assign : forall (c : cfg) (t : ity) i o s,
  (forall e s1 y, runv c t (inr_ o) e s = RV s1 y -> sets s1 i (Ok y) (runl c t o (AsgV (Name i) e) s)) /\
  (forall k s1 j, runl c t (inr_ o) k s = RV s1 j -> sets s1 i (Ok (s1 j)) (runl c t o (AsgL (Name i) k) s)) /\
  (forall l s1 j, runl c t o l s = RV s1 j -> runv c t o (Val l) s = RV s1 (s1 j) /\ j = target l).
Proof. exact (fun c t i o s => conj (fun e s1 y => assign_sets c t i e o s s1 y) (conj (fun k s1 j => copy_sets c t i k o s s1 j) (fun l s1 j => read_of c t l o s s1 j))). Qed.
Print Assumptions C93_assign.
(** Only the variables that the expression names as targets change, whether or not a check fails on the way. *)
Theorem C93_others : forall (c : cfg) (t : ity) e o s i, ~ changes e i ->
  match runv c t o e s with RV s1 _ | RF _ s1 => s1 i = s i | RU => True end.
Proof.
  intros c t e o s i H. destruct (runv c t o e s) as [s1 v|f s1|] eqn:E; [|..].
  - exact (proj1 (frame c t) e o s s1 v E i H).
  - exact (proj1 (frame_fail c t) e o s f s1 E i H).
  - exact I.
Qed.
Print Assumptions C93_others.
(** A separate expression that fails, or is undefined, in one order succeeds in none. *)
Theorem C93_failing : forall (c : cfg) (t : ity) e o s, separate e -> (forall s1 v, runv c t o e s <> RV s1 v) -> forall o' s2 v, runv c t o' e s <> RV s2 v.
Proof. intros c t e o s HS H o' s2 v E. destruct (order_free c t e o' s s2 v HS E o) as (s3 & E3 & _). exact (H _ _ E3). Qed.
Print Assumptions C93_failing.
(** x op= e: e is evaluated first, with its effects; then x gets x op (value of e).  A failed check or a failing e leaves x as it is. *)
Theorem C93_update : forall (c : cfg) (t : ity) op i e o s s1 y, runv c t (inr_ o) e s = RV s1 y ->
  sets s1 i (bapply c t op (s1 i) y) (runl c t o (Upd op (Name i) e) s).
Proof. exact (fun c t op i e o s s1 y => update_sets c t op i e o s s1 y). Qed.
Print Assumptions C93_update.
(** x op= e and x = x op e are the same for every e without side effects, x itself included. *)
Theorem C93_compound : forall (c : cfg) (t : ity) op i e o0 s s0 y, pure e -> runv c t o0 e s = RV s0 y -> forall o,
  sets s i (bapply c t op (s i) y) (runl c t o (Upd op (Name i) e) s) /\ sets s i (bapply c t op (s i) y) (runl c t o (AsgV (Name i) (Bin op (Val (Name i)) e)) s).
Proof. exact (fun c t op i e o0 s s0 y => compound_sets c t op i e o0 s s0 y). Qed.
Print Assumptions C93_compound.
(** ++x and x++ (--x and x--) change x alike; the latter returns the old value.  There is no check: beyond the range of a signed type
    they are undefined in every build. *)
Theorem C93_increment : forall (c : cfg) (t : ity) up i o s,
  sets s i (next t up (s i)) (runl c t o (Pre up (Name i)) s) /\
  match runv c t o (Post up (Name i)) s with RV s' old => old = s i /\ sets s i (next t up (s i)) (RV s' i) | RF _ _ => False | RU => next t up (s i) = UB end.
Proof. exact (fun c t up i o s => increment_sets c t up i o s). Qed.
Print Assumptions C93_increment.

Definition x : nat := 0%nat.
Definition y : nat := 1%nat.
Definition start : store := fun i => if Nat.eqb i 0 then 5 else 7.
Definition lefts : choice := fun _ => true.
Definition rights : choice := fun _ => false.
Definition value_of (r : res Z) : option Z := match r with RV _ v => Some v | _ => None end.
Definition after (r : res nat) (i : nat) : option Z := match r with RV s _ => Some (s i) | _ => None end.
(** "x + x++ has one value": false, compilers may differ. *)
Theorem C93_order_refuted : forall c, let e := Bin Add (Val (Name x)) (Post true (Name x)) in
  value_of (runv c I32 lefts e start) = Some 10 /\ value_of (runv c I32 rights e start) = Some 11 /\ ~ separate e.
Proof.
  intros c. cbv zeta. split; [reflexivity|]. split; [reflexivity|]. intros (_ & _ & [[H|H]|H]); [discriminate|discriminate|]. destruct (H x) as (_ & K). apply K. split; cbn; auto.
Qed.
Print Assumptions C93_order_refuted.
(** "x += e is x = x + e": false if e changes x; x += x++ is 2 * x + 1 for all compilers. *)
Theorem C93_compound_refuted : forall c,
  (forall o, after (runl c I32 o (Upd Add (Name x) (Post true (Name x))) start) x = Some 11) /\
  after (runl c I32 lefts (AsgV (Name x) (Bin Add (Val (Name x)) (Post true (Name x)))) start) x = Some 10.
Proof. intros c. split; [intros o|]; reflexivity. Qed.
Print Assumptions C93_compound_refuted.
(** "(x += 1) = x puts the old value of x back": false, = takes its operand by reference; op= takes it by value. *)
Theorem C93_reference_refuted : forall c o,
  after (runl c I32 o (AsgL (Upd Add (Name x) (Lit 1)) (Name x)) start) x = Some 6 /\
  after (runl c I32 o (Upd Sub (Upd Add (Name x) (Lit 1)) (Val (Name x))) start) x = Some 1.
Proof. intros c o. split; reflexivity. Qed.
Print Assumptions C93_reference_refuted.

(** (x += 2) * y-- and x << x++: the operands of * have no variable in common, those of << are ordered. *)
Definition sample : ex := Bin Mul (Val (Upd Add (Name x) (Lit 2))) (Post false (Name y)).
Definition shifted : ex := Bin Shl (Val (Name x)) (Post true (Name x)).
Example C93_case_order : separate sample /\ separate shifted /\ forall o,
  value_of (runv c_dbg I32 o sample start) = Some 49 /\ value_of (runv c_dbg I32 o shifted start) = Some 160.
Proof.
  split; [|split].
  - cbn. repeat split; auto. right. intros i. unfold x, y. split; intros (A & B); intuition congruence.
  - cbn. auto.
  - intros o. split; [|reflexivity]. unfold sample. cbn [runv runl]. destruct (left_first Mul || o []); reflexivity.
Qed.
Example C93_case_others : ~ changes shifted y.
Proof. cbn. unfold x, y. intuition discriminate. Qed.
Example C93_case_update : runv c_dbg I32 (inr_ lefts) (Post true (Name y)) start = RV (put start y 8) 7 /\
  after (runl c_dbg I32 lefts (Upd Mul (Name x) (Post true (Name y))) start) x = Some 35.
Proof. split; reflexivity. Qed.
(** x %= y - 7 with y = 7 is reported and x keeps its value; x -= x is 0. *)
Example C93_case_compound : pure (Bin Sub (Val (Name y)) (Lit 7)) /\
  value_of (runv c_dbg I32 lefts (Bin Sub (Val (Name y)) (Lit 7)) start) = Some 0 /\
  match runl c_dbg I32 lefts (Upd Rem (Name x) (Bin Sub (Val (Name y)) (Lit 7))) start with RF Throw s => s x = 5 | _ => False end /\
  pure (Val (Name x)) /\ after (runl c_dbg I32 lefts (Upd Sub (Name x) (Val (Name x))) start) x = Some 0.
Proof. split; [intros i; cbn; tauto|]. split; [reflexivity|]. split; [reflexivity|]. split; [intros i; cbn; tauto|reflexivity]. Qed.
Example C93_case_increment : next I32 true (tmax I32) = UB /\ next U32 true (tmax U32) = Ok 0 /\ next I32 false 5 = Ok 4.
Proof. repeat split. Qed.
Example C93_case_operands : bapply c_dbg I32 Mul 7 7 = Ok 49 /\ bapply c_dbg I32 Rem (-7) 2 = Ok (-1) /\ bapply c_dbg U32 Shl 3 31 = Ok 2147483648 /\ bapply c_dbg I32 Xor 6 3 = Ok 5 /\
  runv c_dbg I32 lefts (Val (Upd Add (Name x) (Lit 2))) start = RV (put start x 7) 7 /\ runv c_dbg I32 lefts (Post false (Name y)) (put start x 7) = RV (put (put start x 7) y 6) 7.
Proof. repeat split. Qed.
(** y = ++x. *)
Example C93_case_assign : runl c_dbg I32 (inr_ lefts) (Pre true (Name x)) start = RV (put start x 6) x /\
  after (runl c_dbg I32 lefts (AsgL (Name y) (Pre true (Name x))) start) y = Some 6.
Proof. split; reflexivity. Qed.
(** y-- + x % (x - 5): the remainder by 0 is reported; y may have been changed, x is as before. *)
Example C93_case_failing : let e := Bin Add (Post false (Name y)) (Bin Rem (Val (Name x)) (Bin Sub (Val (Name x)) (Lit 5))) in
  separate e /\ ~ changes e x /\ (forall s1 v, runv c_dbg I32 lefts e start <> RV s1 v) /\
  match runv c_dbg I32 lefts e start with RF Throw s => s x = 5 /\ s y = 6 | _ => False end /\
  match runv c_dbg I32 rights e start with RF Throw s => s x = 5 /\ s y = 7 | _ => False end.
Proof.
  cbv zeta. split.
  - cbn. repeat split; auto; right; intros i; unfold x, y; split; intros (A & B); intuition congruence.
  - split; [cbn; unfold x, y; intuition discriminate|]. split; [intros s1 v; discriminate|]. repeat split.
Qed.
