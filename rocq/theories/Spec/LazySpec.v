(** What expressions kept in variables mean: formulas over the present contents of the arrays, which are lists. *)
From Verif Require Import Base.Outcome Base.ZList Model.Index Model.Slice Model.Array1D Model.View2D Model.Store1D Model.Lazy.
From Verif Require Import Spec.ArraySpec Spec.SliceSpec Spec.View2DSpec Spec.Store1DSpec Spec.StaleSpec.

(** FPick ps F lists the elements number ps[0], ps[1], ... of F; FOwn n g has the elements g 0, g 1, ... and size n. *)
Inductive form (V : Type) :=
| FArr (k : Z) | FOwn (n : Z) (g : Z -> outcome V) | FUn (f : V -> outcome V) (F : form V)
| FBin (f : V -> V -> outcome V) (F G : form V) | FPick (ps : list Z) (F : form V).
Arguments FArr {V}. Arguments FOwn {V}. Arguments FUn {V}. Arguments FBin {V}. Arguments FPick {V}.

Section S.
Context {V : Type} (zero : V) (c : cfg).
Notation lists := (list (list V)).
Notation world := (lists * list (form V))%type.

(** The number of elements: that of the left operand. *)
Fixpoint len (w : lists) (F : form V) : outcome Z :=
  match F with
  | FArr k => match znth w k with Some l => Ok (zlen l) | None => UB end
  | FOwn n _ => Ok n
  | FUn _ F | FBin _ F _ => len w F
  | FPick ps F => len w F ;;; Ok (zlen ps)
  end.
(** Element i, from the elements the arrays have now; undefined when an array has no such element. *)
Fixpoint val (w : lists) (F : form V) (i : Z) : outcome V :=
  match F with
  | FArr k => match znth w k with Some l => oget l i | None => UB end
  | FOwn _ g => g i
  | FUn f F => x <- val w F i ;; f x
  | FBin f F G => x <- val w F i ;; y <- val w G i ;; f x y
  | FPick ps F => match znth ps i with Some p => val w F p | None => UB end
  end.
(** Asking for element i asks no view for an element outside it. *)
Fixpoint inside (F : form V) (i : Z) : Prop :=
  match F with
  | FArr _ | FOwn _ _ => True
  | FUn _ F => inside F i
  | FBin _ F G => inside F i /\ inside G i
  | FPick ps F => exists p, znth ps i = Some p /\ inside F p
  end.
(** The elements of array k that element i is computed from. *)
Fixpoint needs (F : form V) (k i : Z) : list Z :=
  match F with
  | FArr k' => if k' =? k then [i] else []
  | FOwn _ _ => []
  | FUn _ F => needs F k i
  | FBin _ F G => needs F k i ++ needs G k i
  | FPick ps F => match znth ps i with Some p => needs F k p | None => [] end
  end.

(** The formula of an expression, with views resolved against the present sizes.  Operands of different sizes are reported
    where there are checks. *)
Definition same_len (n m : Z) {A} (k : outcome A) : outcome A := if (n =? m) || negb (checked c) then k else Fail (report c).
Fixpoint formula (w : lists) (hs : list (form V)) (x : xt V) : outcome (form V) :=
  match x with
  | XArr k => match znth w k with Some _ => Ok (FArr k) | None => UB end
  | XHeld h => match znth hs h with Some F => Ok F | None => UB end
  | XOwn m => A <- m ;; Ok (FOwn (ssize A) (sun A))
  | XUn f x => F <- formula w hs x ;; Ok (FUn f F)
  | XBin f x y => F <- formula w hs x ;; G <- formula w hs y ;; n <- len w F ;; m <- len w G ;; same_len n m (Ok (FBin f F G))
  | XScalR f x v => F <- formula w hs x ;; n <- len w F ;; Ok (FBin f F (FOwn n (fun _ => Ok v)))
  | XScalL f v x => F <- formula w hs x ;; n <- len w F ;; Ok (FBin f (FOwn n (fun _ => Ok v)) F)
  | XView x ws => F <- formula w hs x ;; n <- len w F ;;
      match den_chain (whole1 n) ws with Some (D1 ps) => Ok (FPick ps F) | _ => UB end
  end.
(** What the text must respect: sizes of stand-alone expressions are sizes, view arguments are valid and give something
    one-dimensional. *)
Fixpoint text_ok (w : lists) (hs : list (form V)) (x : xt V) : Prop :=
  match x with
  | XArr _ | XHeld _ => True
  | XOwn m => match m with Ok A => 0 <= ssize A <= LONG_MAX | _ => True end
  | XUn _ x | XScalR _ x _ | XScalL _ _ x => text_ok w hs x
  | XBin _ x y => text_ok w hs x /\ text_ok w hs y
  | XView x ws => text_ok w hs x /\ ws <> [] /\
      forall F n, formula w hs x = Ok F -> len w F = Ok n -> chain_ok (whole1 n) ws /\ exists ps, den_chain (whole1 n) ws = Some (D1 ps)
  end.

(** The elements g 0, ..., g (n - 1); the first that fails decides. *)
Fixpoint listing (g : Z -> outcome V) (is : list Z) : outcome (list V) :=
  match is with [] => Ok [] | i :: is' => x <- g i ;; l <- listing g is' ;; Ok (x :: l) end.
Definition elements (w : lists) (F : form V) : outcome (list V) :=
  n <- len w F ;; room c n (listing (val w F) (all_positions n)).
(** Array k, now l, gets at the places ps the values [upd old (value number i)] one after the other, i counting from the
    given number; each value is computed when its turn comes. *)
Fixpoint store_in_turn (w : lists) (k : Z) (F : form V) (upd : V -> V -> outcome V) (l : list V) (ps : list Z) (i : Z) : list V * outcome unit :=
  match ps with
  | [] => (l, Ok tt)
  | p :: ps' =>
      match (v <- oget l p ;; x <- val (zupd w k l) F i ;; upd v x) with
      | Ok y => store_in_turn w k F upd (zupd l p y) ps' (i + 1)
      | Fail f => (l, Fail f)
      | UB => (l, UB)
      end
  end.
(** The places of a target: all of the array, or a view of it. *)
Definition target (l : list V) (ws : list vop) : list Z :=
  match den_chain (whole1 (zlen l)) ws with Some (D1 ps) => ps | _ => [] end.

Definition son {A} (s : world) (m : outcome A) (k : A -> res world V) : res world V :=
  match m with Ok x => k x | Fail f => Next s (Failed f) | UB => Crash end.
Definition spec_store (s : world) (k : Z) (ws : list vop) (upd : V -> V -> outcome V) (x : xt V) : res world V :=
  match znth (fst s) k with
  | None => Crash
  | Some l => son s (F <- formula (fst s) (snd s) x ;; n <- len (fst s) F ;; same_len (zlen (target l ws)) n (Ok F)) (fun F =>
      match store_in_turn (fst s) k F upd l (target l ws) 0 with
      | (l', Ok _) => Next (zupd (fst s) k l', snd s) Done
      | (l', Fail f) => Next (zupd (fst s) k l', snd s) (Failed f)
      | (_, UB) => Crash
      end)
  end.
Definition spec_lstep (s : world) (t : lstm V) : res world V :=
  match t with
  | LOp o => match spec_step1 zero c (fst s) o with Next w ob => Next (w, snd s) ob | Crash => Crash end
  | LLet x => son s (formula (fst s) (snd s) x) (fun F => Next (fst s, snd s ++ [F]) Done)
  | LGet h ix => match znth (snd s) h with
      | None => Crash
      | Some F => son s (n <- len (fst s) F ;; guard c (in_range n (denotes n ix)) (val (fst s) F (denotes n ix))) (fun v => Next s (Value v)) end
  | LSize h => match znth (snd s) h with
      | None => Crash
      | Some F => son s (len (fst s) F) (fun n => Next s (Number n)) end
  | LNew x => son s (F <- formula (fst s) (snd s) x ;; elements (fst s) F) (fun l => Next (fst s ++ [l], snd s) Done)
  | LSet k ws x => spec_store s k ws (fun _ y => Ok y) x
  | LUpd k ws f x => spec_store s k ws f x
  | LRes k x => match znth (fst s) k with
      | None => Crash
      | Some _ => son s (F <- formula (fst s) (snd s) x ;; elements (fst s) F) (fun l => Next (zupd (fst s) k l, snd s) Done) end
  end.

(** All elements of the expression are inside its views. *)
Definition all_inside (w : lists) (hs : list (form V)) (x : xt V) : Prop :=
  forall F n i, formula w hs x = Ok F -> len w F = Ok n -> 0 <= i < n -> inside F i.
Definition store_ok (s : world) (k : Z) (ws : list vop) (x : xt V) : Prop :=
  text_ok (fst s) (snd s) x /\ all_inside (fst s) (snd s) x /\
  forall l, znth (fst s) k = Some l ->
    chain_ok (whole1 (zlen l)) ws /\ (exists ps, den_chain (whole1 (zlen l)) ws = Some (D1 ps)) /\
    (checked c = true \/ forall F, formula (fst s) (snd s) x = Ok F -> len (fst s) F = Ok (zlen (target l ws))).
(** What programs must respect: see StaleSpec.v; and views are asked only for elements inside them. *)
Definition lrespects (s : world) (t : lstm V) : Prop :=
  match t with
  | LOp o => op_long o /\ sound c (spec_step1 zero c (fst s) o)
  | LLet x => text_ok (fst s) (snd s) x
  | LGet h ix => forall F n, znth (snd s) h = Some F -> len (fst s) F = Ok n ->
      idx_fits n ix /\ (checked c = true \/ in_range n (denotes n ix) = true) /\ (in_range n (denotes n ix) = true -> inside F (denotes n ix))
  | LSize _ => True
  | LNew x | LRes _ x => text_ok (fst s) (snd s) x /\ all_inside (fst s) (snd s) x
  | LSet k ws x | LUpd k ws _ x => store_ok s k ws x
  end.
Fixpoint lprogram (s : world) (ts : list (lstm V)) : Prop :=
  match ts with
  | [] => True
  | t :: ts' => lrespects s t /\
      match spec_lstep s t with
      | Next s' (Failed f) => if fatal f then True else lprogram s' ts'
      | Next s' _ => lprogram s' ts'
      | Crash => True
      end
  end.

(** ** Notions for the theorems *)
(** The arrays an expression names; it uses no variables holding expressions; it has no views. *)
Fixpoint names (x : xt V) : list Z :=
  match x with
  | XArr k => [k] | XHeld _ | XOwn _ => [] | XUn _ x | XScalR _ x _ | XScalL _ _ x | XView x _ => names x
  | XBin _ x y => names x ++ names y
  end.
Fixpoint spelled (x : xt V) : bool :=
  match x with
  | XHeld _ => false | XArr _ | XOwn _ => true | XUn _ x | XScalR _ x _ | XScalL _ _ x | XView x _ => spelled x
  | XBin _ x y => spelled x && spelled y
  end.
Fixpoint plain (x : xt V) : bool :=
  match x with
  | XHeld _ | XView _ _ => false | XArr _ | XOwn _ => true | XUn _ x | XScalR _ x _ | XScalL _ _ x => plain x
  | XBin _ x y => plain x && plain y
  end.
(** Stand-alone expressions in x have a size. *)
Fixpoint own_sizes (x : xt V) : Prop :=
  match x with
  | XArr _ | XHeld _ => True
  | XOwn m => match m with Ok A => 0 <= ssize A <= LONG_MAX | _ => True end
  | XUn _ x | XScalR _ x _ | XScalL _ _ x | XView x _ => own_sizes x
  | XBin _ x y => own_sizes x /\ own_sizes y
  end.
(** The target, read. *)
Definition seen (k : Z) (ws : list vop) : xt V := match ws with [] => XArr k | _ => XView (XArr k) ws end.
(** No element is needed after it was overwritten: element i of F needs none of the places before ps[i]. *)
Definition ahead (F : form V) (k : Z) (ps : list Z) : Prop :=
  forall i j p, j < i < zlen ps -> znth ps j = Some p -> ~ In p (needs F k i).
(** l with the given values at the given places, the last one winning. *)
Fixpoint put_all (l : list V) (ps : list Z) (vs : list V) : list V :=
  match ps, vs with p :: ps', v :: vs' => put_all (zupd l p v) ps' vs' | _, _ => l end.
End S.
