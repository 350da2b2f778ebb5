(** C77: programs on arrays of several element types and dimensions. *)
From Coq Require Import ZArith Bool List Lia.
From Coq Require Import Reals.
From Flocq Require Import Core BinarySingleNaN.
From Verif Require Import Model.FloatModel Model.StableOps Spec.IntSpec.
From Verif Require Import Base.Outcome Base.ZList Model.IntModel Model.Scalars Model.Typed.
From Verif Require Import Spec.Configs Spec.ScalarSpec Spec.TypedSpec Proofs.TypedProofs Proofs.TypedThms Proofs.TypedRules Proofs.TypedSafe Proofs.TypedTypes.
Import ListNotations.
Local Open Scope Z_scope.

(** A program that compiles, run from a state of the declared types, in any build: it is never stuck on operands of types without
    an operation, every variable keeps its type, and an error is a reported check, a failed assertion, or lack of memory. *)
Theorem C77_soundness : forall c l E E' s, typed s -> types_of s = E -> Forall stm_consts l -> ptyp E l = Some E' ->
  exists r, run c s l = Some r /\
    match r with MOk s' => typed s' /\ types_of s' = E' | MFail f s' => reported c f /\ typed s' | MUB => True end.
Proof. exact (fun c l E E' s T S0 => run_sound c l E E' s (conj T S0)). Qed.
Print Assumptions C77_soundness.
(** In a checked build a program without move assignments ends normally exactly if every statement has a meaning element by element,
    and then with that result. *)
Theorem C77_meaning : forall c l E E' s s', cfg_ok c -> checked c = true -> typed s -> types_of s = E -> sized s -> Forall stm_consts l ->
  Forall (fun t => ~ moves t) l -> ptyp E l = Some E' -> (run c s l = Some (MOk s') <-> performs c s l s').
Proof.
  exact (fun c l E E' s s' OK K T S0 SZ C NM Y =>
    conj (run_performs c l E E' s OK K (conj T S0) SZ C NM Y s') (performs_run c l E E' s OK (conj T S0) SZ C Y s')).
Qed.
Print Assumptions C77_meaning.
(** In any build, and with move assignments, a meaningful program gives that result; so there is only one. *)
Theorem C77_any_build : forall c l E E' s s', cfg_ok c -> typed s -> types_of s = E -> sized s -> Forall stm_consts l -> ptyp E l = Some E' ->
  performs c s l s' -> run c s l = Some (MOk s') /\ forall s'', performs c s l s'' -> s'' = s'.
Proof.
  exact (fun c l E E' s s' OK T S0 SZ C Y P => let R := performs_run c l E E' s OK (conj T S0) SZ C Y in
    conj (R s' P) (fun s'' P'' => f_equal (fun r => match r with Some (MOk x) => x | _ => s'' end) (eq_trans (eq_sym (R s'' P'')) (R s' P)))).
Qed.
Print Assumptions C77_any_build.
(** A program that ends normally with all checks ends with the same result without them, and with more memory. *)
Theorem C77_builds_agree : forall c c' E E' s l s', cfg_ok c -> cfg_ok c' -> checked c = true -> amax c <= amax c' -> typed s -> types_of s = E -> sized s ->
  Forall stm_consts l -> Forall (fun t => ~ moves t) l -> ptyp E l = Some E' -> run c s l = Some (MOk s') -> run c' s l = Some (MOk s').
Proof. exact (fun c c' E E' s l s' O O' K M T S0 => builds_agree c c' E E' s l s' O O' K M (conj T S0)). Qed.
Print Assumptions C77_builds_agree.
(** Only array_cast mixes element types: an expression that compiles without it has the type and dimension of every array it names. *)
Theorem C77_one_type : forall K G e t, uncast e -> atyp K G e = Some t -> forall k, In k (names e) -> nth_error K k = Some (adim t, ael t).
Proof. exact one_type. Qed.
Print Assumptions C77_one_type.
(** Declared variables keep their types; statements only add variables. *)
Theorem C77_types_kept : forall l E E', ptyp E l = Some E' -> exists K G, fst E' = fst E ++ K /\ snd E' = snd E ++ G.
Proof. exact types_kept. Qed.
Print Assumptions C77_types_kept.
(** Arrays that are not the target of a statement, and scalars, keep their values, also when the program ends with an error. *)
Theorem C77_untouched : forall c l s r s', run c s l = Some r -> r = MOk s' \/ (exists f, r = MFail f s') ->
  (exists more, snd s' = snd s ++ more) /\
  forall j a, (forall t, In t l -> target t <> Some j) -> nth_error (fst s) j = Some a -> nth_error (fst s') j = Some a.
Proof.
  exact (fun c l s r s' R E => untouched c l s r s' R
    (match E with or_introl e => f_equal state_of e | or_intror (ex_intro f e) => f_equal state_of e end)).
Qed.
Print Assumptions C77_untouched.
(** Only resize_and_assign and move assignment change sizes, in any build, also when the program ends with an error. *)
Theorem C77_sizes_kept : forall c l s r s', run c s l = Some r -> r = MOk s' \/ (exists f, r = MFail f s') ->
  Forall (fun t => ~ moves t /\ ~ resizes t) l -> forall j a, nth_error (fst s) j = Some a ->
  exists a', nth_error (fst s') j = Some a' /\ tty a' = tty a /\ tsh a' = tsh a /\ zlen (tel a') = zlen (tel a).
Proof.
  exact (fun c l s r s' R E => sizes_kept c l s r s' R
    (match E with or_introl e => f_equal state_of e | or_intror (ex_intro f e) => f_equal state_of e end)).
Qed.
Print Assumptions C77_sizes_kept.
(** Operands of different sizes in a checked build: the error is reported and nothing has changed. *)
Theorem C77_mismatch : forall c s E' t, typed s -> sized s -> checked c = true -> stm_consts t -> styp (types_of s) t = Some E' -> mismatched c s t ->
  step c s t = Some (MFail (report c) s).
Proof. exact (fun c s E' t T SZ K => mismatch c s T SZ K E' t). Qed.
Print Assumptions C77_mismatch.
(** No undefined behaviour in a checked build, for programs on bool, unsigned and floating-point arrays, without array_cast, shifts,
    scalar arithmetic and move assignments. *)
Theorem C77_defined : forall c l E E' s, cfg_ok c -> checked c = true -> typed s -> types_of s = E -> sized s ->
  Forall (fun x => steady (snd x)) (fst E) -> Forall stm_consts l -> Forall gentle_stm l -> Forall (fun t => ~ moves t) l -> ptyp E l = Some E' ->
  run c s l <> Some MUB.
Proof. exact (fun c l E E' s OK K T S0 => run_defined c K l E E' s OK (conj T S0)). Qed.
Print Assumptions C77_defined.

(** Exactly the statements that the rules of [compiles] allow compile. *)
Theorem C77_compiles : forall K G t E', styp (K, G) t = Some E' <-> compiles K G t E'.
Proof. exact styp_iff. Qed.
Print Assumptions C77_compiles.
Theorem C77_types : forall K G e d b, (exists t, atyp K G e = Some (mkaty d b t)) <-> array K G d b e.
Proof. exact atyp_iff. Qed.
Print Assumptions C77_types.
(** abs of an integer; it overflows for the smallest number of a signed type only.  abs of a floating-point number: the number itself
    if it is positive, and else its negation (-0 for +0, see C80).  inv is the quotient 1 / x. *)
Theorem C77_abs : forall c,
  (forall t z, fits (signed t) (bits t) z -> vabs c (VI t z) = Some (if (if signed t then z =? - 2 ^ (bits t - 1) else false) then UB else Ok (VI t (Z.abs z)))) /\
  (forall f (x : flt f), vabs c (VF f x) = Some (Ok (VF f (if above_zero x then x else Bopp x)))).
Proof. intros c. split; [exact (abs_int c)|exact (abs_flt c)]. Qed.
Print Assumptions C77_abs.
Theorem C77_inv : forall c f (x : flt f), exists one : flt f, is_finite one = true /\ B2R one = 1%R /\ vinv c (VF f x) = Some (Ok (VF f (Bdiv mode_NE one x))).
Proof. exact inv_flt. Qed.
Print Assumptions C77_inv.

(** ** Cases *)
Definition ui (z : Z) : value := VI U32 z.
Definition si (z : Z) : value := VI I32 z.
Definition u1 (l : list Z) : tarr := mktarr (TI U32) (Sh1 (zlen l)) (map ui l).
Definition u2 (m n : Z) (l : list Z) : tarr := mktarr (TI U32) (Sh2 m n) (map ui l).
Definition i1 (l : list Z) : tarr := mktarr (TI I32) (Sh1 (zlen l)) (map si l).
Definition idx (i : Z) : exp := XRaw (VI I32 i).
(** A0 = {1, 2, 3}, A1 = {4, 5, 6}, A2 = {{1, 2}, {3, 4}}, all unsigned. *)
Definition s0 : state := ([u1 [1; 2; 3]; u1 [4; 5; 6]; u2 2 2 [1; 2; 3; 4]], []).
Lemma s0_typed : typed s0.
Proof. split; [|constructor]. repeat (constructor; [repeat (constructor; [split; [reflexivity|vm_compute; intuition congruence]|]); constructor|]). constructor. Qed.
Lemma s0_sized : sized s0.
Proof. repeat (constructor; [vm_compute; intuition congruence|]). constructor. Qed.
(** A0 = A1 * A0 + A0; A2 *= A2; x = sum(A2); A3 = A1 - A0 is new; A0[2] = A1[0]; y = (A0 == A1); A1.resize_and_assign(A0 / A1). *)
Definition prog : list stm :=
  [SSet 0 (ABin OAdd (ABin OMul (AVar 1) (AVar 0)) (AVar 0)); SOp OMul 2 (AVar 2); SSum (AVar 2); SNew (ABin OSub (AVar 1) (AVar 0)); SGet 1 [idx 0]; SPut 0 [idx 2] (XVar 1);
   SEqual (AVar 0) (AVar 1); SRes 1 (ABin ODiv (AVar 0) (AVar 1))].
Definition s1 : state :=
  ([u1 [5; 12; 4]; u1 [1; 2; 0]; u2 2 2 [1; 4; 9; 16]; u1 [4294967295; 4294967289; 4294967281]], [(Str (TI U32), ui 30); (Str (TI U32), ui 4); (Str TB, VB false)]).
Example prog_compiles : ptyp (types_of s0) prog = Some (types_of s1). Proof. reflexivity. Qed.
Lemma prog_consts : Forall stm_consts prog.
Proof. repeat (constructor; [vm_compute; intuition (try congruence); repeat constructor; vm_compute; intuition congruence|]). constructor. Qed.
Lemma prog_gentle : Forall gentle_stm prog.
Proof. repeat (constructor; [repeat split; try discriminate; repeat constructor|]). constructor. Qed.
Lemma prog_stays : Forall (fun t => ~ moves t) prog.
Proof. repeat (constructor; [intros []|]). constructor. Qed.
Example prog_runs : run (mkcfg true true false 1000) s0 prog = Some (MOk s1). Proof. vm_compute. reflexivity. Qed.
Lemma c0_ok : cfg_ok (mkcfg true true false 1000). Proof. vm_compute. intuition congruence. Qed.
Example C77_soundness_ex : exists r, run (mkcfg false false true 7) s0 prog = Some r /\
    match r with MOk s' => typed s' /\ types_of s' = types_of s1 | MFail f s' => reported (mkcfg false false true 7) f /\ typed s' | MUB => True end.
Proof. exact (C77_soundness _ _ _ _ _ s0_typed eq_refl prog_consts prog_compiles). Qed.
Example C77_meaning_ex : performs (mkcfg true true false 1000) s0 prog s1.
Proof. exact (proj1 (C77_meaning _ _ _ _ _ _ c0_ok eq_refl s0_typed eq_refl s0_sized prog_consts prog_stays prog_compiles) prog_runs). Qed.
Example C77_any_build_ex : forall s'', performs (mkcfg true true false 1000) s0 prog s'' -> s'' = s1.
Proof. exact (proj2 (C77_any_build _ _ _ _ _ _ c0_ok s0_typed eq_refl s0_sized prog_consts prog_compiles C77_meaning_ex)). Qed.
Example C77_builds_agree_ex : run (mkcfg false false true 2000) s0 prog = Some (MOk s1).
Proof.
  refine (C77_builds_agree (mkcfg true true false 1000) _ _ (types_of s1) _ _ _ c0_ok _ eq_refl _ s0_typed eq_refl s0_sized prog_consts prog_stays prog_compiles prog_runs); vm_compute; intuition congruence.
Qed.
Example C77_one_type_ex : atyp (fst (types_of s0)) [] (ABin OAdd (ABin OMul (AVar 1) (AVar 0)) (AUn UPlus (AVar 0))) = Some (mkaty false (TI U32) false). Proof. reflexivity. Qed.
(** Arrays of different dimensions or element types do not compile; nor do temporaries as operands, comparisons, and built-in scalars. *)
Example C77_rejected_ex : let K := [(false, TI U32); (true, TI U32); (false, TI I32)] in
  atyp K [] (ABin OAdd (AVar 0) (AVar 1)) = None /\ atyp K [] (ABin OAdd (AVar 0) (AVar 2)) = None /\ atyp K [] (ABin OAdd (ATemp (AVar 0)) (AVar 0)) = None /\
  atyp K [] (ABin OLt (AVar 0) (AVar 0)) = None /\ atyp K [] (ARight OAdd (AVar 2) (XRaw (si 1))) = None /\
  atyp K [] (ARight OAdd (AVar 2) (XMake (TI I32) (XRaw (si 1)))) = Some (mkaty false (TI I32) false) /\
  atyp K [] (ABin OAdd (ACast (TI I32) (AVar 0)) (AVar 2)) = Some (mkaty false (TI I32) false).
Proof. repeat split. Qed.
(** A %= B compiles for integers, not for double or bool; ^ makes an array of bool but ^= does not compile for it. *)
Example C77_compiles_ex : let K := [(false, TI U32); (false, TF F64); (true, TB)] in
  compiles K [] (SOp OMod 0 (AVar 0)) (K, []) /\ styp (K, []) (SOp OMod 1 (AVar 1)) = None /\ compiles K [] (SNew (ABin OXor (AVar 2) (AVar 2))) (K ++ [(true, TB)], []) /\
  styp (K, []) (SOp OXor 2 (AVar 2)) = None /\ array K [] false (TF F64) (ATemp (AInv (AVar 1))).
Proof.
  cbv zeta. split; [apply C77_compiles; reflexivity|]. split; [reflexivity|]. split; [apply C77_compiles; reflexivity|]. split; [reflexivity|].
  apply C77_types. now exists true.
Qed.
Example C77_abs_ex : fits (signed I32) (bits I32) (-7) /\ vabs c_dbg (VI I32 (-7)) = Some (Ok (VI I32 7)) /\ vabs c_dbg (VI I32 (- 2 ^ 31)) = Some UB.
Proof. split; [vm_compute; split; congruence|]. split; reflexivity. Qed.
Example C77_types_kept_ex : exists K G, fst (types_of s1) = fst (types_of s0) ++ K /\ snd (types_of s1) = snd (types_of s0) ++ G.
Proof. exact (C77_types_kept _ _ _ prog_compiles). Qed.
Example C77_untouched_ex : forall t, In t [SFill 0 (XMake (TI U32) (XRaw (ui 7))); SOp OAdd 2 (AVar 2)] -> target t <> Some 1%nat.
Proof. intros t [<-|[<-|[]]]; discriminate. Qed.
(** An error in the middle: A0 = A1 / A0 with a zero divisor keeps the elements stored so far, and all sizes. *)
Example C77_sizes_kept_ex : run (mkcfg true true false 1000) ([u1 [1; 0; 3]; u1 [4; 5; 6]], []) [SSet 0 (ABin ODiv (AVar 1) (AVar 0))] = Some (MFail Throw ([u1 [4; 0; 3]; u1 [4; 5; 6]], [])).
Proof. vm_compute. reflexivity. Qed.
Example C77_mismatch_ex : let s : state := ([u1 [1; 2; 3]; u1 [4; 5]], []) in
  mismatched (mkcfg true true false 1000) s (SSet 0 (ABin OAdd (AVar 0) (AVar 1))) /\ mismatched (mkcfg true true false 1000) s (SSet 0 (AVar 1)) /\
  step (mkcfg true true false 1000) s (SSet 0 (AVar 1)) = Some (MFail Throw s).
Proof.
  cbv zeta. split; [|split].
  - left. right. exists (Sh1 3). split; [eexists; split; reflexivity|]. split; [exact I|]. right. exists (Sh1 2). split; [eexists; split; reflexivity|]. split; [exact I|discriminate].
  - right. split; [intros []|]. exists (u1 [1; 2; 3]), (Sh1 2). split; [reflexivity|]. split; [eexists; split; reflexivity|]. split; [exact I|discriminate].
  - reflexivity.
Qed.
Example C77_defined_ex : run (mkcfg true true false 1000) s0 prog <> Some MUB.
Proof. refine (C77_defined _ _ _ (types_of s1) _ c0_ok eq_refl s0_typed eq_refl s0_sized _ prog_consts prog_gentle prog_stays prog_compiles). repeat constructor. Qed.

(** ** What does not hold *)
(** Without checks, A0 = A1 with a shorter A1 ends normally although it has no meaning: the rest of A0 is kept. *)
Theorem C77_unchecked_refuted : exists c s s' t, cfg_ok c /\ typed s /\ sized s /\ stm_consts t /\ styp (types_of s) t = Some (types_of s) /\ ~ moves t /\
  run c s [t] = Some (MOk s') /\ forall s'', ~ performs c s [t] s''.
Proof.
  exists (mkcfg false false true 1000), ([u1 [1; 2; 3]; u1 [4; 5]], []), ([u1 [4; 5; 3]; u1 [4; 5]], []), (SSet 0 (AVar 1)).
  split; [vm_compute; intuition congruence|]. split; [split; [|constructor]; repeat (constructor; [repeat (constructor; [split; [reflexivity|vm_compute; intuition congruence]|]); constructor|]); constructor|].
  split; [repeat (constructor; [vm_compute; intuition congruence|]); constructor|]. split; [exact I|]. split; [reflexivity|]. split; [intros []|]. split; [reflexivity|].
  intros s'' (s1' & (a & a' & E & (SH & _) & _ & B & _) & _). destruct SH as (a2 & E2 & D). cbn in E, E2. injection E as <-. injection E2 as <-. rewrite B in D. discriminate D.
Qed.
Print Assumptions C77_unchecked_refuted.
(** With all checks that throw (and NDEBUG), a move assignment of other sizes to a two-dimensional array is not noticed, and makes a
    later checked access undefined. *)
Theorem C77_move_refuted : exists c s l, cfg_ok c /\ checked c = true /\ typed s /\ sized s /\ Forall stm_consts l /\ ptyp (types_of s) l <> None /\
  Forall gentle_stm l /\ run c s l = Some MUB.
Proof.
  exists (mkcfg true true true 1000), ([u2 2 2 [1; 2; 3; 4]; u2 1 1 [5]], []), [SSet 0 (ATemp (AVar 1)); SGet 0 [idx 1; idx 1]].
  split; [vm_compute; intuition congruence|]. split; [reflexivity|]. split; [split; [|constructor]; repeat (constructor; [repeat (constructor; [split; [reflexivity|vm_compute; intuition congruence]|]); constructor|]); constructor|].
  split; [repeat (constructor; [vm_compute; intuition congruence|]); constructor|]. split; [repeat (constructor; [vm_compute; intuition (try congruence); repeat constructor; vm_compute; intuition congruence|]); constructor|].
  split; [discriminate|]. split; [repeat constructor|]. vm_compute. reflexivity.
Qed.
Print Assumptions C77_move_refuted.
(** With signed elements a sum can overflow, which no check reports. *)
Theorem C77_signed_refuted : exists c s l, cfg_ok c /\ checked c = true /\ typed s /\ sized s /\ Forall stm_consts l /\ ptyp (types_of s) l <> None /\
  Forall gentle_stm l /\ Forall (fun t => ~ moves t) l /\ run c s l = Some MUB.
Proof.
  exists (mkcfg true true false 1000), ([i1 [2147483647; 1]], []), [SSum (AVar 0)].
  split; [vm_compute; intuition congruence|]. split; [reflexivity|]. split; [split; [|constructor]; repeat (constructor; [repeat (constructor; [split; [reflexivity|vm_compute; intuition congruence]|]); constructor|]); constructor|].
  split; [repeat (constructor; [vm_compute; intuition congruence|]); constructor|]. split; [repeat constructor|].
  split; [discriminate|]. split; [repeat constructor|]. split; [constructor; [intros []|constructor]|]. vm_compute. reflexivity.
Qed.
Print Assumptions C77_signed_refuted.
