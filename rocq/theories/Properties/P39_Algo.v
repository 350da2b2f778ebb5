(** Property C85: algorithms of the standard library, or anybody's, on the iterators of the library. *)
From Verif Require Import Base.Outcome Base.ZList Model.Index Model.Slice Model.View2D Model.Iterator Model.Algo.
From Verif Require Import Spec.ArraySpec Spec.IteratorSpec Spec.View2DSpec Spec.AlgoSpec Spec.Configs Proofs.AlgoProofs.

(** Two algorithms, as a standard library has them.  Variables 0 and 1 are first and last. *)
(** std::reverse: --last; while(first < last) { swap; ++first; --last; }.  f and l are the variables in use, n the next new one. *)
Fixpoint rev_loop {V} (fuel f l n : nat) : algo V unit :=
  match fuel with
  | O => Return tt
  | S k => Comp ILt f l (fun b => if b then
             Load f (fun x => Load l (fun y => Store f y (Store l x (Move MInc f 0 (Move MDec l 0 (rev_loop k n (n + 1) (n + 2)))))))
           else Return tt)
  end.
Definition std_reverse {V} (fuel : nat) : algo V unit :=
  Comp IEq 0 1 (fun b => if b then Return tt else Move MDec 1 0 (rev_loop fuel 0 2 3)).
(** std::accumulate: for(; first != last; first++) sum = 10 * sum + *first. *)
Fixpoint acc_loop (fuel f n : nat) (sum : Z) : algo Z Z :=
  match fuel with
  | O => Return sum
  | S k => Comp INe f 1 (fun b => if b then Load f (fun x => Move MPostInc f 0 (acc_loop k n (n + 1) (10 * sum + x))) else Return sum)
  end.
Definition std_accumulate (fuel : nat) : algo Z Z := acc_loop fuel 0 2 0.

(** ** C85 *)

(** Whatever an algorithm does with plain pointers into arrays that share nothing, it does with the iterators and the
    reverse iterators of arrays, views and slices, in every configuration: the same result, the same values in every range
    it uses, and nothing else is changed. *)
Theorem C85_as_pointers : forall c E ix used writable (V R : Type) (a : algo V R) xs ps s M r M',
  laid_out E used writable ix s M -> Forall2 (at_ ix used) xs ps -> Forall (fun w => 0 <= snd w <= zlen (M (fst w))) ps ->
  pointers writable a ps M = Some (r, M') ->
  exists s', run c E a xs s = RDone r s' /\ laid_out E used writable ix s' M' /\ rest_kept used writable ix s s'.
Proof. exact (fun c E ix used writable V R => @any_thm c E ix used writable V R). Qed.
Print Assumptions C85_as_pointers.

(** In checked builds the mistakes an algorithm can make with pointers are reported: an element outside a range, positions of
    different objects compared or subtracted.  What it stored before that remains; nothing outside the ranges is touched. *)
Theorem C85_checked : forall c E ix used writable (V R : Type) (a : algo V R) xs ps s M,
  laid_out E used writable ix s M -> Forall2 (at_ ix used) xs ps ->
  match positions writable a ps M with
  | Done r M' => exists s', run c E a xs s = RDone r s' /\ laid_out E used writable ix s' M' /\ rest_kept used writable ix s s'
  | Reported M' => checked c = true -> exists s', run c E a xs s = RFail (report c) s' /\ laid_out E used writable ix s' M' /\ rest_kept used writable ix s s'
  | Nothing => True
  end.
Proof. exact (fun c E ix used writable V R => @run_agrees c E ix used V R writable). Qed.
Print Assumptions C85_checked.

(** begin, end, rbegin and rend are at the ends of the ranges. *)
Theorem C85_starts : forall E ix (used : range -> Prop) p, shows (E p) (ix p) ->
  (used (p, false) -> at_ ix used (v_begin p) ((p, false), 0) /\ exists e, v_end E p = Ok e /\ at_ ix used e ((p, false), zlen (ix p))) /\
  (used (p, true) -> (exists b, v_rbegin E p = Ok b /\ at_ ix used b ((p, true), 0)) /\ at_ ix used (v_rend p) ((p, true), zlen (ix p))).
Proof. exact starts_thm. Qed.
Print Assumptions C85_starts.

(** Every array and every view of one, forwards and backwards: an algorithm on begin, end (or rbegin, rend) does to the
    elements of the view what it does to a plain array holding their values; if it writes, the elements have to be different ones. *)
Theorem C85_views : forall c N o (V : Type) (s : list V) (d : bool), is_view c N o -> zlen s = N ->
  exists ps vs first last, zlen ps = zlen vs /\ o_size o = Ok (zlen ps) /\
    (forall i p, znth ps i = Some p -> o_lin c o (if d then zlen ps - 1 - i else i) = Ok p /\ 0 <= p < N /\ znth s p = znth vs i) /\
    (if d then v_rbegin (fun _ => flag_elems c o) 0 = Ok first /\ last = v_rend 0 else first = v_begin 0 /\ v_end (fun _ => flag_elems c o) 0 = Ok last) /\
    forall (R : Type) (writes : bool) (a : algo V R) r M', (writes = true -> NoDup ps) ->
      pointers (fun _ => writes) a [((0, d), 0); ((0, d), zlen vs)] (fun _ => vs) = Some (r, M') ->
      exists s', run c (fun _ => flag_elems c o) a [first; last] s = RDone r s' /\ holds s' ps (M' (0, d)) /\ zlen s' = N /\
        forall p, writes = false \/ ~ In p ps -> znth s' p = znth s p.
Proof. exact (fun c N o V => @view_thm c N o V). Qed.
Print Assumptions C85_views.

(** std::reverse on the even elements of an array of six; std::accumulate with last and first exchanged, which reads outside
    and is reported; std::accumulate (with 10 * sum + x for sum + x) over them backwards. *)
Definition evens_of_six : obj := OS1 (O1 6) (RSeq (mkseqn 0 3 2)).
Definition six_env (c : cfg) : env Z := fun _ => flag_elems c evens_of_six.
Example C85_case :
  pointers (fun _ => true) (@std_reverse Z 5) [((0, false), 0); ((0, false), 3)] (fun _ => [10; 30; 50]) <> None /\
  (exists e, v_end (six_env c_dbg) 0 = Ok e /\ run c_dbg (six_env c_dbg) (std_reverse 5) [v_begin 0; e] [10; 20; 30; 40; 50; 60] = RDone tt [50; 20; 30; 40; 10; 60] /\
     run c_dbg (six_env c_dbg) (std_accumulate 9) [e; v_begin 0] [10; 20; 30; 40; 50; 60] = RFail Throw [10; 20; 30; 40; 50; 60]) /\
  (exists b, v_rbegin (six_env c_dbg) 0 = Ok b /\ run c_off (six_env c_off) (std_accumulate 9) [b; v_rend 0] [1; 2; 3; 4; 5; 6] = RDone 531 [1; 2; 3; 4; 5; 6]) /\
  positions (fun _ => true) (std_accumulate 9) [((0, false), 3); ((0, false), 0)] (fun _ => [10; 30; 50]) <> Nothing.
Proof.
  split; [vm_compute; discriminate|].
  split; [exists (mkvar false (mkit (Some 0) 3)); repeat split; vm_compute; reflexivity|].
  split; [exists (mkvar true (mkit (Some 0) 3)); split; vm_compute; reflexivity|]. vm_compute. discriminate.
Qed.
(** The layout of two ranges: a writable slice and the odd elements, read backwards, of the same array. *)
Example C85_layout_case : laid_out (fun p => flag_list (if p =? 0 then [0; 2; 4] else [1; 3; 5])) (fun r => r = (0, false) \/ r = (1, true)) (fun r => fst r =? 0)
  (fun p => if p =? 0 then [0; 2; 4] else [1; 3; 5]) [10; 20; 30; 40; 50; 60] (fun r => if fst r =? 0 then [10; 30; 50] else [60; 40; 20]).
Proof.
  intros r [-> | ->]; cbn [fst snd].
  - split; [apply Proofs.IteratorProofs.list_shows; vm_compute; discriminate|]. split; [intros p; cbn; intuition (subst; lia)|].
    split; [split; [reflexivity|]|].
    + intros i p Hp. pose proof (znth_lt _ _ _ Hp) as Hi. cbn in Hp, Hi. assert (i = 0 \/ i = 1 \/ i = 2) as [-> | [-> | ->]] by lia; injection Hp as <-; reflexivity.
    + intros _ q [-> | ->] i j p Hi Hj; pose proof (znth_lt _ _ _ Hi) as Bi; pose proof (znth_lt _ _ _ Hj) as Bj; cbn in Bi, Bj;
        assert (i = 0 \/ i = 1 \/ i = 2) as [-> | [-> | ->]] by lia; assert (j = 0 \/ j = 1 \/ j = 2) as [-> | [-> | ->]] by lia; vm_compute in Hi, Hj; rewrite <- Hi in Hj; first [discriminate Hj | split; reflexivity].
  - split; [apply Proofs.IteratorProofs.list_shows; vm_compute; discriminate|]. split; [intros p; cbn; intuition (subst; lia)|].
    split; [split; [reflexivity|]|].
    + intros i p Hp. pose proof (znth_lt _ _ _ Hp) as Hi. cbn in Hp, Hi. assert (i = 0 \/ i = 1 \/ i = 2) as [-> | [-> | ->]] by lia; injection Hp as <-; reflexivity.
    + discriminate.
Qed.

(** Iterators of owning arrays give the address data() + i of element i. *)
Theorem C85_address : forall c o n i, owner o n -> 0 <= i < n -> n <= LONG_MAX ->
  exists it, it_plus c (it_begin 0) i = Ok it /\ to_address c (fun _ => flag_elems c o) it = Ok i /\
    it_deref c (fun _ => flag_elems c o) it = Ok i /\ o_data n = Some 0.
Proof. exact address_thm. Qed.
Print Assumptions C85_address.

(** The library declares these iterators contiguous, which includes std::to_address(end()) being data() + size().  That holds
    in unchecked builds only; in checked builds it ends the program, and so does making a std::span of an empty array from
    its iterators. *)
Theorem C85_contiguous_end_refuted : forall c o n, owner o n -> 0 <= n <= LONG_MAX ->
  exists e, it_end (fun _ => flag_elems c o) 0 = Ok e /\
    (checked c = true -> to_address c (fun _ => flag_elems c o) e = noexcept (Fail (report c))) /\
    (checked c = false -> to_address c (fun _ => flag_elems c o) e = Ok n) /\
    span_of c (fun _ => flag_elems c o) (it_begin 0) e = if checked c && (n =? 0) then noexcept (Fail (report c)) else Ok (0, n).
Proof. exact end_address_thm. Qed.
Print Assumptions C85_contiguous_end_refuted.

(** std::span(begin() + i, begin() + j) is the j - i elements from i on, in every build, if there is an element i. *)
Theorem C85_span : forall c o n i j, owner o n -> 0 <= i < n -> i <= j <= n -> n <= LONG_MAX ->
  exists a b, it_plus c (it_begin 0) i = Ok a /\ it_plus c (it_begin 0) j = Ok b /\ span_of c (fun _ => flag_elems c o) a b = Ok (i, j - i).
Proof. exact span_thm. Qed.
Print Assumptions C85_span.
Example C85_span_case : owner (O1 5) 5 /\ span_of c_dbg (fun _ => flag_elems c_dbg (O1 5)) (mkit (Some 0) 1) (mkit (Some 0) 5) = Ok (1, 4).
Proof. split; [left; reflexivity|vm_compute; reflexivity]. Qed.

Example C85_address_case : owner (O2 2 3 6) 6 /\ to_address c_dbg (fun _ => flag_elems c_dbg (O2 2 3 6)) (mkit (Some 0) 5) = Ok 5 /\
  to_address c_dbg (fun _ => flag_elems c_dbg (O2 2 3 6)) (mkit (Some 0) 6) = Fail Terminate /\
  span_of c_abort (fun _ => flag_elems c_abort (O1 0)) (it_begin 0) (it_begin 0) = Fail Abort /\
  span_of c_off (fun _ => flag_elems c_off (O1 0)) (it_begin 0) (it_begin 0) = Ok (0, 0).
Proof. split; [right; eauto|]. repeat split; vm_compute; reflexivity. Qed.

(** Forward iterators made by the default constructor are to compare equal; here that holds in unchecked builds only. *)
Theorem C85_default_equal_refuted : forall c, it_cmp c IEq it_null it_null = if checked c then Fail (report c) else Ok true.
Proof. exact null_equal_thm. Qed.
Print Assumptions C85_default_equal_refuted.
