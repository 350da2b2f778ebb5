(** Which variables an expression uses and changes. *)
From Verif Require Import Base.Outcome Model.IntModel Model.InPlace.

(** The variable an lvalue refers to. *)
Fixpoint target (l : lv) : nat := match l with Name i => i | Pre _ l | Upd _ l _ | AsgV l _ | AsgL l _ => target l end.
Fixpoint uses (e : ex) (i : nat) : Prop :=
  match e with Lit _ => False | Val l => uses_l l i | Bin _ e1 e2 => uses e1 i \/ uses e2 i | Post _ l => uses_l l i end
with uses_l (l : lv) (i : nat) : Prop :=
  match l with Name k => i = k | Pre _ l => uses_l l i | Upd _ l e => uses_l l i \/ uses e i | AsgV l e => uses_l l i \/ uses e i | AsgL l k => uses_l l i \/ uses_l k i end.
Fixpoint changes (e : ex) (i : nat) : Prop :=
  match e with Lit _ => False | Val l => changes_l l i | Bin _ e1 e2 => changes e1 i \/ changes e2 i | Post _ l => i = target l \/ changes_l l i end
with changes_l (l : lv) (i : nat) : Prop :=
  match l with
  | Name _ => False
  | Pre _ l => i = target l \/ changes_l l i
  | Upd _ l e => i = target l \/ changes_l l i \/ changes e i
  | AsgV l e => i = target l \/ changes_l l i \/ changes e i
  | AsgL l k => i = target l \/ changes_l l i \/ changes_l k i
  end.
(** No operand of + - * / % & | ^ changes a variable that the other operand uses. *)
Fixpoint separate (e : ex) : Prop :=
  match e with
  | Lit _ => True
  | Val l => separate_l l
  | Bin op e1 e2 => separate e1 /\ separate e2 /\ ((op = Shl \/ op = Shr) \/ forall i, ~ (changes e1 i /\ uses e2 i) /\ ~ (uses e1 i /\ changes e2 i))
  | Post _ l => separate_l l
  end
with separate_l (l : lv) : Prop :=
  match l with Name _ => True | Pre _ l => separate_l l | Upd _ l e => separate_l l /\ separate e | AsgV l e => separate_l l /\ separate e | AsgL l k => separate_l l /\ separate_l k end.
(** No side effects. *)
Definition pure (e : ex) : Prop := forall i, ~ changes e i.
Definition same_store (s s' : store) : Prop := forall i, s i = s' i.
(** Variable i gets the value that w is, the others stay; or w fails and no variable changes. *)
Definition sets (s : store) (i : nat) (w : outcome Z) (r : res nat) : Prop :=
  match w, r with
  | Ok v, RV s' k => k = i /\ s' i = v /\ forall j, j <> i -> s' j = s j
  | Fail f, RF f' s' => f = f' /\ same_store s s'
  | UB, RU => True
  | _, _ => False
  end.
(** x + 1 and x - 1 in type t: wrapping for unsigned types, undefined beyond the range of signed ones. *)
Definition next (t : ity) (up : bool) (x : Z) : outcome Z :=
  let y := if up then x + 1 else x - 1 in
  if signed t then if (tmin t <=? y) && (y <=? tmax t) then Ok y else UB else Ok (y mod tmod t).
(** The value of an operator that does not fail: exact for signed types and modulo 2^bits for unsigned ones; quotients towards zero; bit by bit. *)
Definition exact (t : ity) (z v : Z) : Prop := if signed t then v = z else v = z mod tmod t.
Definition computed (t : ity) (op : bop) (x y v : Z) : Prop :=
  match op with
  | Add => exact t (x + y) v | Sub => exact t (x - y) v | Mul => exact t (x * y) v
  | Div => y <> 0 /\ v = Z.quot x y | Rem => y <> 0 /\ x = y * Z.quot x y + v
  | Shl => 0 <= y < bits t /\ v mod tmod t = (x * 2 ^ y) mod tmod t
  | Shr => 0 <= y < bits t /\ v * 2 ^ y <= x < (v + 1) * 2 ^ y
  | And => forall k, Z.testbit v k = Z.testbit x k && Z.testbit y k
  | Or => forall k, Z.testbit v k = Z.testbit x k || Z.testbit y k
  | Xor => forall k, Z.testbit v k = xorb (Z.testbit x k) (Z.testbit y k)
  end.
