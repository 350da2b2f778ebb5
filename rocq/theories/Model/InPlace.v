(** Expressions that change scalar variables: ++, --, op=, = on Strict<T>, StrictCommon/strict_val.hpp 101-224.
    All variables and values are of one integer type t (mixed types do not compile, C71).
    Order of evaluation, from the C++ standard: operands of + - * / % & | ^ are parameters of a function, evaluated one after the other
    in an order the compiler chooses; << and >> evaluate the left operand first; = and op= evaluate the right operand first.
    Simplification: initializing the parameter of op= from a variable counts as evaluating the right operand. *)
From Verif Require Import Base.Outcome Model.IntModel.

Inductive bop := Add | Sub | Mul | Div | Rem | Shl | Shr | And | Or | Xor.
(** strict_val.hpp 161-224 (op=), 382-451 (op): both compute the same value after the same checks. *)
Definition bapply (c : cfg) (t : ity) (op : bop) (x y : Z) : outcome Z :=
  match op with
  | Add => iadd t x y | Sub => isub t x y | Mul => imul t x y | Div => idiv c t x y | Rem => imod c t x y
  | Shl => ishl c t x y | Shr => ishr c t x y | And => Ok (iand t x y) | Or => Ok (ior t x y) | Xor => Ok (ixor t x y)
  end.
(** The language rule: is the left operand always evaluated first? *)
Definition left_first (op : bop) : bool := match op with Shl | Shr => true | _ => false end.

(** Values and variables.  The functions are &-qualified: they are called on variables and on what ++x, x op= e and x = e return. *)
Inductive ex :=
| Lit (z : Z)
| Val (l : lv)                       (* a variable used as a value *)
| Bin (op : bop) (e1 e2 : ex)
| Post (up : bool) (l : lv)          (* x++, x-- *)
with lv :=
| Name (i : nat)
| Pre (up : bool) (l : lv)           (* ++x, --x *)
| Upd (op : bop) (l : lv) (e : ex)   (* x op= e *)
| AsgV (l : lv) (e : ex)             (* x = e for a value e *)
| AsgL (l k : lv).                   (* x = y for a variable y *)

Definition store := nat -> Z.
Definition put (s : store) (i : nat) (v : Z) : store := fun k => if Nat.eqb k i then v else s k.
(** Result of an evaluation: the variables afterwards and the value (or the variable referred to). *)
Inductive res (A : Type) := RV (s : store) (a : A) | RF (f : failure) (s : store) | RU.
Arguments RV {A} s a.
Arguments RF {A} f s.
Arguments RU {A}.
Definition rbind {A B} (r : res A) (k : store -> A -> res B) : res B := match r with RV s a => k s a | RF f s => RF f s | RU => RU end.
Definition rlift {A B} (o : outcome A) (s : store) (k : A -> res B) : res B := match o with Ok a => k a | Fail f => RF f s | UB => RU end.
(** strict_val.hpp 139-147, 149-159: ++val_, --val_. *)
Definition step_by (t : ity) (up : bool) (x : Z) : outcome Z := if up then iincr t x else idecr t x.

(** The compiler's choices: for every place in the expression, whether the left operand comes first. *)
Definition choice := list bool -> bool.
Definition inl_ (o : choice) : choice := fun p => o (true :: p).
Definition inr_ (o : choice) : choice := fun p => o (false :: p).

Section RUN.
Context (c : cfg) (t : ity).
Fixpoint runv (o : choice) (e : ex) (s : store) : res Z :=
  match e with
  | Lit z => RV s z
  | Val l => rbind (runl o l s) (fun s i => RV s (s i))
  | Bin op e1 e2 =>
      if left_first op || o []
      then rbind (runv (inl_ o) e1 s) (fun s x => rbind (runv (inr_ o) e2 s) (fun s y => rlift (bapply c t op x y) s (RV s)))
      else rbind (runv (inr_ o) e2 s) (fun s y => rbind (runv (inl_ o) e1 s) (fun s x => rlift (bapply c t op x y) s (RV s)))
  (* strict_val.hpp 149-159: the old value is copied first. *)
  | Post up l => rbind (runl o l s) (fun s i => let old := s i in rlift (step_by t up (s i)) s (fun v => RV (put s i v) old))
  end
with runl (o : choice) (l : lv) (s : store) : res nat :=
  match l with
  | Name i => RV s i
  (* strict_val.hpp 139-147. *)
  | Pre up l => rbind (runl o l s) (fun s i => rlift (step_by t up (s i)) s (fun v => RV (put s i v) i))
  (* strict_val.hpp 161-224: the parameter is a copy; the checks come before the change. *)
  | Upd op l e => rbind (runv (inr_ o) e s) (fun s y => rbind (runl (inl_ o) l s) (fun s i => rlift (bapply c t op (s i) y) s (fun v => RV (put s i v) i)))
  (* strict_val.hpp 106: the parameter is a reference; to a temporary here, *)
  | AsgV l e => rbind (runv (inr_ o) e s) (fun s y => rbind (runl (inl_ o) l s) (fun s i => RV (put s i y) i))
  (* to a variable here, which is read last. *)
  | AsgL l k => rbind (runl (inr_ o) k s) (fun s j => rbind (runl (inl_ o) l s) (fun s i => RV (put s i (s j)) i))
  end.
End RUN.
