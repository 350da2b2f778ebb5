(** Reading and printing text. *)
From Coq Require Import Ascii.
From Verif Require Import Base.Outcome Base.ZList Model.IntModel Model.Index Model.Array1D Model.Array2D Model.ArrayIO.
From Verif Require Import Spec.ArraySpec Spec.MatrixSpec Spec.Shape2Spec Spec.IOSpec Proofs.IOProofs.
From Coq Require Import ZifyBool ZifyNat.

Ltac all_ascii a := destruct a as [[|] [|] [|] [|] [|] [|] [|] [|]].

Lemma ws_spaces a : is_ws a = true <-> In a spaces.
Proof. all_ascii a; vm_compute; split; intros H; try discriminate; try tauto; repeat (destruct H as [H|H]; [discriminate H|]); destruct H. Qed.
Lemma digit_numeral d : 0 <= d < 10 -> digit_of (numeral d) = Some d /\ digit d = numeral d.
Proof. intros H. assert (d = 0 \/ d = 1 \/ d = 2 \/ d = 3 \/ d = 4 \/ d = 5 \/ d = 6 \/ d = 7 \/ d = 8 \/ d = 9) by lia. intuition (subst; reflexivity). Qed.
Lemma digit_not a : ~ In a numerals -> digit_of a = None.
Proof. all_ascii a; vm_compute; intros H; try reflexivity; exfalso; apply H; tauto. Qed.
Lemma space_facts a : In a spaces -> is_ws a = true /\ digit_of a = None.
Proof. cbn. intuition (subst; reflexivity). Qed.
Lemma sign_facts a : In a signs -> is_ws a = false /\ digit_of a = None.
Proof. cbn. intuition (subst; reflexivity). Qed.
Lemma foreign_facts a : foreign a -> is_ws a = false /\ digit_of a = None /\ Ascii.eqb a "-" = false /\ Ascii.eqb a "+" = false.
Proof.
  intros (H1 & H2 & H3). repeat split.
  - destruct (is_ws a) eqn:E; [|reflexivity]. apply ws_spaces in E. contradiction.
  - now apply digit_not.
  - apply Ascii.eqb_neq. intros ->. apply H3. cbn. auto.
  - apply Ascii.eqb_neq. intros ->. apply H3. cbn. auto.
Qed.

(** The next character, if any, is not a digit. *)
Definition ends (s : text) : Prop := match s with [] => True | a :: _ => digit_of a = None end.
Definition glue (zs : list Z) (r : list Z * bool) : list Z * bool := (zs ++ fst r, snd r).

Lemma gap_skip t g u : gap g -> extract t Skip (g ++ u) = extract t Skip u.
Proof. intros H. induction H as [|a g Ha H IH]; [reflexivity|]. cbn [app extract]. destruct (space_facts a Ha) as [-> ->]. exact IH. Qed.
Lemma digits_end t neg n z u : ends u -> to_int t neg n = Some z -> extract t (Digits neg n) u = glue [z] (extract t Skip u).
Proof. intros He Hz. destruct u as [|a u]; cbn [extract]; [now rewrite Hz|]. cbn in He. rewrite He, Hz. reflexivity. Qed.
Lemma digits_bad t neg n u : ends u -> to_int t neg n = None -> extract t (Digits neg n) u = ([], match u with [] => true | _ => false end).
Proof. intros He Hz. destruct u as [|a u]; cbn [extract]; [now rewrite Hz|]. cbn in He. now rewrite He, Hz. Qed.
Lemma digits_run t neg ds u : Forall (fun d => 0 <= d < 10) ds -> forall n,
  extract t (Digits neg n) (map numeral ds ++ u) = extract t (Digits neg (fold_left (fun v d => 10 * v + d) ds n)) u.
Proof.
  intros H. induction H as [|d ds Hd H IH]; intros n; [reflexivity|]. cbn [map app extract fold_left].
  destruct (digit_numeral d Hd) as [-> _]. apply IH.
Qed.
Lemma digits_scan t s n u : digits s n -> extract t Skip (s ++ u) = extract t (Digits false n) u /\
  forall neg, extract t (Sign neg) (s ++ u) = extract t (Digits neg n) u.
Proof.
  intros (ds & Hne & Hd & -> & ->). destruct ds as [|d ds]; [congruence|]. inversion Hd; subst. unfold number. cbn [map app fold_left extract].
  destruct (digit_numeral d) as [-> _]; [assumption|]. replace (10 * 0 + d) with d by lia. split; [|intros neg]; now apply digits_run.
Qed.
Lemma number_nonneg ds : Forall (fun d => 0 <= d < 10) ds -> 0 <= number ds.
Proof.
  unfold number. cut (forall v, Forall (fun d => 0 <= d < 10) ds -> 0 <= v -> 0 <= fold_left (fun v d => 10 * v + d) ds v).
  - intros H1 H2. apply H1; [exact H2|lia].
  - induction ds as [|d ds IH]; intros v H Hv; [exact Hv|]. inversion H; subst. cbn [fold_left]. apply IH; [assumption|lia].
Qed.
Lemma digits_nonneg s n : digits s n -> 0 <= n.
Proof. intros (ds & _ & H & _ & ->). now apply number_nonneg. Qed.

Lemma integer_scan t s z u : integer s z -> exists neg n, extract t Skip (s ++ u) = extract t (Digits neg n) u /\ 0 <= n /\ z = (if neg then - n else n).
Proof.
  intros [H|[(v & -> & H)|(v & -> & H)]]; pose proof (digits_nonneg _ _ H).
  - exists false, z. now rewrite (proj1 (digits_scan t s z u H)).
  - exists false, z. cbn [app]. change (extract t Skip ("+"%char :: v ++ u)) with (extract t (Sign false) (v ++ u)). now rewrite (proj2 (digits_scan t v z u H)).
  - exists true, (- z). cbn [app]. change (extract t Skip ("-"%char :: v ++ u)) with (extract t (Sign true) (v ++ u)). rewrite (proj2 (digits_scan t v _ u H)).
    repeat split; lia.
Qed.
Lemma to_int_in t (neg : bool) (n z : Z) : 0 <= n -> z = (if neg then - n else n) -> in_type t z -> to_int t neg n = Some z.
Proof.
  intros Hn Hz [H1 H2]. unfold to_int. rewrite <- Hz. destruct (signed t) eqn:Es.
  - replace ((tmin t <=? z) && (z <=? tmax t)) with true by lia. reflexivity.
  - assert (tmin t = 0) by (destruct t; try discriminate; reflexivity).
    assert (n = z) by (destruct neg; lia). subst n. replace (z <=? tmax t) with true by lia. f_equal. unfold wrap.
    rewrite Z.mod_small by (destruct t; try discriminate; cbn in *; lia). now replace (z <=? tmax t) with true by lia.
Qed.
Lemma to_int_out t (neg : bool) (n z : Z) : signed t = true -> z = (if neg then - n else n) -> ~ in_type t z -> to_int t neg n = None.
Proof. intros Es Hz H. unfold to_int. rewrite Es, <- Hz. unfold in_type in H. replace ((tmin t <=? z) && (z <=? tmax t)) with false by lia. reflexivity. Qed.

Lemma words_scan t s zs : words t s zs -> forall u, ends u -> extract t Skip (s ++ u) = glue zs (extract t Skip u).
Proof.
  induction 1 as [g Hg|g s z r zs Hg Hs Hz Hw IH Hr]; intros u Hu.
  - rewrite gap_skip by auto. unfold glue. now destruct (extract t Skip u).
  - rewrite <- !app_assoc. rewrite gap_skip by auto. destruct (integer_scan t s z (r ++ u) Hs) as (neg & n & -> & Hn & Hv).
    rewrite (digits_end t neg n z).
    + rewrite IH by auto. reflexivity.
    + destruct r as [|a r]; [exact Hu|]. cbn. now apply space_facts.
    + now apply to_int_in.
Qed.

(** Complete text. *)
Lemma text_good t s zs : words t s zs -> extract t Skip s = (zs, true).
Proof. intros H. rewrite <- (app_nil_r s). rewrite (words_scan t s zs H []) by exact I. unfold glue. cbn. now rewrite app_nil_r. Qed.
(** A foreign character stops it. *)
Lemma text_foreign t s zs a r : words t s zs -> foreign a -> extract t Skip (s ++ a :: r) = (zs, false).
Proof.
  intros H Ha. destruct (foreign_facts a Ha) as (H1 & H2 & H3 & H4). rewrite (words_scan t s zs H) by exact H2.
  cbn [extract]. rewrite H1, H2, H3, H4. unfold glue. cbn. now rewrite app_nil_r.
Qed.
Lemma sign_state t sg u : In sg signs -> exists neg, extract t Skip (sg :: u) = extract t (Sign neg) u.
Proof. intros [<-|[<-|[]]]; eexists; reflexivity. Qed.
(** A sign without digits: an error, unless it is the very last character. *)
Lemma text_sign t s zs sg a r : words t s zs -> In sg signs -> ~ In a numerals -> extract t Skip (s ++ sg :: a :: r) = (zs, false).
Proof.
  intros H Hs Ha. destruct (sign_facts sg Hs) as (H1 & H2). rewrite (words_scan t s zs H) by exact H2.
  destruct (sign_state t sg (a :: r) Hs) as (neg & ->). cbn [extract]. rewrite (digit_not a Ha). unfold glue. cbn. now rewrite app_nil_r.
Qed.
Lemma text_sign_last t s zs sg : words t s zs -> In sg signs -> extract t Skip (s ++ [sg]) = (zs, true).
Proof.
  intros H Hs. destruct (sign_facts sg Hs) as (H1 & H2). rewrite (words_scan t s zs H) by exact H2.
  destruct (sign_state t sg [] Hs) as (neg & ->). unfold glue. cbn. now rewrite app_nil_r.
Qed.
(** A number that does not fit: an error, unless the text ends with it. *)
Lemma detached_words t s zs : words t s zs -> detached s -> forall u, extract t Skip (s ++ u) = glue zs (extract t Skip u).
Proof.
  induction 1 as [g Hg|g s z r zs Hg Hs Hz Hw IH Hr]; intros Hd u.
  - rewrite gap_skip by auto. unfold glue. now destruct (extract t Skip u).
  - assert (Hne : s <> []). { destruct Hs as [(ds & Hn & _ & -> & _)|[(v & -> & _)|(v & -> & _)]]; [destruct ds; [congruence|discriminate]|discriminate..]. }
    assert (Hlast : forall b, In b spaces -> forall w, s <> w ++ [b]).
    { intros b Hb w E. assert (Hin : In b s) by (rewrite E; apply in_or_app; right; now left).
      assert (HN : forall ds, Forall (fun d => 0 <= d < 10) ds -> ~ In b (map numeral ds)).
      { intros ds Hds Hi. apply in_map_iff in Hi as (d & <- & Hi). rewrite Forall_forall in Hds. destruct (digit_numeral d (Hds d Hi)) as [E1 _].
        destruct (space_facts _ Hb) as [_ E2]. congruence. }
      destruct Hs as [(ds & _ & Hds & -> & _)|[(v & -> & ds & _ & Hds & -> & _)|(v & -> & ds & _ & Hds & -> & _)]].
      - now apply (HN ds).
      - destruct Hin as [<-|Hin]; [cbn in Hb; intuition discriminate|now apply (HN ds)].
      - destruct Hin as [<-|Hin]; [cbn in Hb; intuition discriminate|now apply (HN ds)]. }
    assert (Hr2 : r <> [] /\ detached r).
    { destruct Hd as [Hd|(w & b & Hd & Hb)].
      - apply app_eq_nil in Hd as [_ Hd]. apply app_eq_nil in Hd as [Hd _]. contradiction.
      - destruct r as [|a r] using rev_ind.
        + exfalso. rewrite app_nil_r in Hd. destruct s as [|x s] using rev_ind; [congruence|]. rewrite app_assoc in Hd.
          apply app_inj_tail in Hd as [_ ->]. now apply (Hlast b Hb s).
        + split; [now destruct r|]. right. exists r, a. split; [reflexivity|]. rewrite !app_assoc in Hd. apply app_inj_tail in Hd as [_ ->]. exact Hb. }
    destruct Hr2 as [Hr2 Hr3]. rewrite <- !app_assoc. rewrite gap_skip by auto. destruct (integer_scan t s z (r ++ u) Hs) as (neg & n & -> & Hn & Hv).
    rewrite (digits_end t neg n z).
    + rewrite IH by auto. reflexivity.
    + destruct r as [|a r]; [congruence|]. cbn. now apply space_facts.
    + now apply to_int_in.
Qed.
Lemma text_overflow t s zs w z u : signed t = true -> words t s zs -> detached s -> integer w z -> ~ in_type t z -> ends u ->
  extract t Skip (s ++ w ++ u) = (zs, match u with [] => true | _ => false end).
Proof.
  intros Es H Hd Hw Hz Hu. rewrite (detached_words t s zs H Hd). destruct (integer_scan t w z u Hw) as (neg & n & -> & Hn & Hv).
  rewrite digits_bad; [|auto|now apply (to_int_out t neg n z)]. unfold glue. cbn. now rewrite app_nil_r.
Qed.

(** ** Printing *)
Lemma decimal_digits k : forall n, 0 <= n < 2 ^ Z.of_nat k -> (0 < k)%nat -> digits (decimal k n) n.
Proof.
  induction k as [|k IH]; intros n Hn Hk; [lia|]. cbn [decimal]. destruct (Z.ltb_spec n 10).
  - exists [n]. repeat split; try discriminate.
    + repeat constructor; lia.
    + cbn. now rewrite (proj2 (digit_numeral n ltac:(lia))).
  - assert (Hk' : (0 < k)%nat) by (destruct k; [cbn in Hn; lia|lia]).
    replace (Z.of_nat (S k)) with (Z.succ (Z.of_nat k)) in Hn by lia. rewrite Z.pow_succ_r in Hn by lia.
    assert (0 <= n / 10 < 2 ^ Z.of_nat k) by (split; [apply Z.div_pos; lia|apply Z.div_lt_upper_bound; lia]).
    assert (Hm : 0 <= n mod 10 < 10) by (apply Z.mod_pos_bound; lia).
    destruct (IH (n / 10)) as (ds & Hne & Hd & E & Ev); auto. exists (ds ++ [n mod 10]). repeat split.
    + now destruct ds.
    + apply Forall_app. split; [assumption|]. repeat constructor; lia.
    + rewrite E, map_app. cbn. now rewrite (proj2 (digit_numeral (n mod 10) Hm)).
    + unfold number in *. rewrite fold_left_app. cbn [fold_left]. rewrite <- Ev. pose proof (Z.div_mod n 10). lia.
Qed.
Lemma udec_digits n : 0 <= n -> digits (udec n) n.
Proof.
  intros H. unfold udec. apply decimal_digits; [|lia]. split; [lia|]. destruct (Z.eq_dec n 0) as [->|]; [cbn; lia|].
  pose proof (Z.log2_spec n ltac:(lia)) as [_ B]. pose proof (Z.log2_nonneg n). replace (Z.of_nat (S (Z.to_nat (Z.log2 n)))) with (Z.succ (Z.log2 n)) by lia. exact B.
Qed.
Lemma show_integer t x : in_type t x -> integer (show t x) x.
Proof.
  intros [H1 H2]. unfold show. destruct (signed t) eqn:Es.
  - destruct (Z.ltb_spec x 0).
    + right; right. eexists. split; [reflexivity|]. replace (- x) with (Z.abs x) by lia. apply udec_digits. lia.
    + right; left. eexists. split; [reflexivity|]. replace (Z.abs x) with x by lia. now apply udec_digits.
  - left. apply udec_digits. destruct t; try discriminate; cbn in H1; lia.
Qed.
Lemma in_sp : In sp spaces. Proof. cbn; auto. Qed.
Lemma in_nl : In nl spaces. Proof. cbn; auto. Qed.
Lemma gap_sp k : gap (repeat sp k).
Proof. induction k; constructor; auto using in_sp. Qed.

Lemma print1_words t l : Forall (in_type t) l -> words t (print1_col t l) l.
Proof.
  intros H. unfold print1_col.
  cut (forall g, gap g -> words t (g ++ concat (map (fun x => show t x ++ [nl]) l)) l); [intros Hc; apply (Hc []); constructor|].
  induction H as [|x l Hx H IH]; intros g Hg.
  - cbn. rewrite app_nil_r. now constructor.
  - cbn [map concat]. rewrite <- app_assoc. apply words_cons; auto using show_integer.
    + apply (IH [nl]). constructor; [exact in_nl|constructor].
    + exact in_nl.
Qed.
Lemma join_words t w l tail : Forall (in_type t) l -> gap tail -> (forall g, gap g -> words t (g ++ join t w l ++ tail) l).
Proof.
  intros H Ht. induction H as [|x l Hx H IH]; intros g Hg.
  - cbn. constructor. apply Forall_app. now split.
  - assert (Gw : gap (g ++ repeat sp (w - length (show t x)))) by (apply Forall_app; split; [exact Hg|apply gap_sp]).
    destruct l as [|y l].
    + cbn [join]. unfold pad. rewrite <- !app_assoc. rewrite app_assoc. apply words_cons; auto using show_integer.
      * now constructor.
      * destruct tail; [exact I|]. now inversion Ht.
    + change (join t w (x :: y :: l)) with (pad w (show t x) ++ [sp; sp] ++ join t w (y :: l)). unfold pad. rewrite <- !app_assoc. rewrite app_assoc.
      apply words_cons; auto using show_integer.
      * apply IH. repeat constructor; exact in_sp.
      * exact in_sp.
Qed.
Lemma print1_row_words t l : Forall (in_type t) l -> words t (print1_row t l) l.
Proof. intros H. apply (join_words t 0 l [nl] H) with (g := []); repeat constructor; exact in_nl. Qed.

(** Lines. *)
Lemma getlines_line u : ~ In nl u -> forall s cur, getlines cur (u ++ nl :: s) = (rev cur ++ u) :: getlines [] s.
Proof.
  induction u as [|a u IH]; intros Hu s cur; cbn [app getlines].
  - rewrite Ascii.eqb_refl. now rewrite app_nil_r.
  - destruct (Ascii.eqb_spec a nl) as [->|Hn]; [exfalso; apply Hu; now left|]. rewrite IH by (intros Hi; apply Hu; now right).
    cbn [rev]. now rewrite <- app_assoc.
Qed.
Lemma integer_nonl s z : integer s z -> ~ In nl s.
Proof.
  intros H Hi. assert (HN : forall ds, Forall (fun d => 0 <= d < 10) ds -> ~ In nl (map numeral ds)).
  { intros ds Hds Hj. apply in_map_iff in Hj as (d & E & Hj). rewrite Forall_forall in Hds. destruct (digit_numeral d (Hds d Hj)) as [E1 _]. rewrite E in E1. discriminate. }
  destruct H as [(ds & _ & Hds & -> & _)|[(v & -> & ds & _ & Hds & -> & _)|(v & -> & ds & _ & Hds & -> & _)]].
  - now apply (HN ds).
  - destruct Hi as [Hi|Hi]; [discriminate|now apply (HN ds)].
  - destruct Hi as [Hi|Hi]; [discriminate|now apply (HN ds)].
Qed.
Lemma pad_nonl w t x : in_type t x -> ~ In nl (pad w (show t x)).
Proof.
  intros H Hi. unfold pad in Hi. apply in_app_or in Hi as [Hi|Hi]; [apply repeat_spec in Hi; discriminate|].
  now apply (integer_nonl _ _ (show_integer t x H)).
Qed.
Lemma join_nonl t w l : Forall (in_type t) l -> ~ In nl (join t w l).
Proof.
  intros H. induction H as [|x l Hx H IH]; [intros []|]. destruct l as [|y l].
  - now apply pad_nonl.
  - change (join t w (x :: y :: l)) with (pad w (show t x) ++ [sp; sp] ++ join t w (y :: l)). intros Hi.
    apply in_app_or in Hi as [Hi|Hi]; [now apply (pad_nonl w t x)|]. apply in_app_or in Hi as [[Hi|[Hi|[]]]|Hi]; [discriminate..|now apply IH].
Qed.
Lemma join_line t w l : Forall (in_type t) l -> l <> [] -> line_of t (join t w l) = mkline false l true.
Proof.
  intros H Hl. unfold line_of. pose proof (join_words t w l [] H (Forall_nil _) [] (Forall_nil _)) as W. cbn [app] in W. rewrite app_nil_r in W.
  rewrite (text_good t _ l W). cbn [fst snd]. f_equal. destruct (join t w l) eqn:E; [|reflexivity]. exfalso.
  pose proof (text_good t _ _ W) as W2. rewrite (text_good t [] []) in W2 by (constructor; constructor).
  congruence.
Qed.
Lemma print2_lines t w M : Forall (Forall (in_type t)) M -> getlines [] (concat (map (fun r => join t w r ++ [nl]) M)) = map (join t w) M.
Proof.
  intros H. induction H as [|r M Hr H IH]; [reflexivity|]. cbn [map concat]. rewrite <- app_assoc. cbn [app].
  rewrite getlines_line by now apply join_nonl. cbn [rev app]. now rewrite IH.
Qed.

Lemma getlines_all Ls last : Forall one_line Ls -> one_line last -> getlines [] (unlines Ls ++ last) = Ls ++ match last with [] => [] | _ => [last] end.
Proof.
  intros H Hlast. unfold unlines. induction H as [|s Ls Hs H IH]; cbn [map concat app].
  - assert (G : forall u cur, one_line u -> getlines cur u = match rev cur ++ u with [] => [] | v => [v] end).
    { induction u as [|a u IHu]; intros cur Hu.
      - cbn. rewrite app_nil_r. destruct cur as [|b cur]; [reflexivity|]. cbn [rev]. now destruct (rev cur).
      - cbn [getlines]. destruct (Ascii.eqb_spec a nl) as [->|Hn]; [exfalso; apply Hu; now left|].
        rewrite IHu by (intros Hi; apply Hu; now right). cbn [rev]. now rewrite <- app_assoc. }
    rewrite G by exact Hlast. now destruct last.
  - rewrite <- !app_assoc. cbn [app]. change ("010"%char) with nl. rewrite getlines_line by exact Hs. cbn [rev app]. f_equal. exact IH.
Qed.
Lemma words_line t s zs : words t s zs -> zs <> [] -> line_of t s = mkline false zs true.
Proof.
  intros W Hz. unfold line_of. rewrite (text_good t s zs W). cbn [fst snd]. f_equal. destruct s; [|reflexivity]. exfalso.
  pose proof (text_good t [] [] (words_nil t [] (Forall_nil _))) as W2. rewrite (text_good t _ _ W) in W2. congruence.
Qed.

Theorem read1_text_ok c t s zs A : 8 <= amax c < two62 -> 2 * zlen zs <= amax c -> words t s zs ->
  exists A', read1_text c t s A = MOk A' /\ rep A' zs.
Proof. intros Hc Hm W. unfold read1_text. rewrite (text_good t s zs W). cbn [fst snd]. now apply read1_ok. Qed.
Theorem read1_text_foreign c t s zs a r A : 8 <= amax c < two62 -> 2 * zlen zs <= amax c -> loud c = true -> words t s zs -> foreign a ->
  read1_text c t (s ++ a :: r) A = MFail (report c) A.
Proof. intros Hc Hm Hl W Ha. unfold read1_text. rewrite (text_foreign t s zs a r W Ha). cbn [fst snd]. now apply read1_bad. Qed.
Theorem read1_text_sign c t s zs sg a r A : 8 <= amax c < two62 -> 2 * zlen zs <= amax c -> loud c = true -> words t s zs -> In sg signs -> ~ In a numerals ->
  read1_text c t (s ++ sg :: a :: r) A = MFail (report c) A.
Proof. intros Hc Hm Hl W Hs Ha. unfold read1_text. rewrite (text_sign t s zs sg a r W Hs Ha). cbn [fst snd]. now apply read1_bad. Qed.
Theorem read1_text_overflow c t s zs w z a r A : 8 <= amax c < two62 -> 2 * zlen zs <= amax c -> loud c = true -> signed t = true ->
  words t s zs -> detached s -> integer w z -> ~ in_type t z -> ~ In a numerals -> read1_text c t (s ++ w ++ a :: r) A = MFail (report c) A.
Proof.
  intros Hc Hm Hl Es W Hd Hw Hz Ha. unfold read1_text. rewrite (text_overflow t s zs w z (a :: r) Es W Hd Hw Hz (digit_not a Ha)). cbn [fst snd]. now apply read1_bad.
Qed.
(** A malformed end of input is not noticed. *)
Theorem read1_text_last c t s zs e A : 8 <= amax c < two62 -> 2 * zlen zs <= amax c -> words t s zs ->
  In e (map (fun a => [a]) signs) \/ (signed t = true /\ detached s /\ exists z, integer e z /\ ~ in_type t z) ->
  exists A', read1_text c t (s ++ e) A = MOk A' /\ rep A' zs.
Proof.
  intros Hc Hm W H. unfold read1_text. assert (extract t Skip (s ++ e) = (zs, true)) as ->; [|now apply read1_ok].
  destruct H as [H|(Es & Hd & z & Hz & Hn)].
  - apply in_map_iff in H as (a & <- & Ha). now apply text_sign_last.
  - rewrite <- (app_nil_r e). now rewrite (text_overflow t s zs e z [] Es W Hd Hz Hn I).
Qed.
Theorem print_read1 c t l A : 8 <= amax c < two62 -> 2 * zlen l <= amax c -> Forall (in_type t) l ->
  (exists A', read1_text c t (print1_col t l) A = MOk A' /\ rep A' l) /\ (exists A', read1_text c t (print1_row t l) A = MOk A' /\ rep A' l).
Proof. intros Hc Hm H. split; apply read1_text_ok; auto using print1_words, print1_row_words. Qed.

Lemma rows_lines (M : list (list Z)) : rows (map (fun r => mkline false r true) M) = M.
Proof. induction M as [|r M IH]; [reflexivity|]. cbn [map]. rewrite rows_cons. cbn [lempty ltoks]. now rewrite IH. Qed.
Lemma lines_rect n (M : list (list Z)) : rect n M -> rows_or_empty n (map (fun r => mkline false r true) M).
Proof. intros H. unfold rows_or_empty. induction H; cbn [map]; constructor; auto. right. now repeat split. Qed.
Lemma words_lines t Ls M n : Forall2 (words t) Ls M -> rect n M -> 0 < n -> map (line_of t) Ls = map (fun r => mkline false r true) M.
Proof.
  intros H HR Pn. induction H as [|s zs Ls M Hs H IH]; [reflexivity|]. inversion HR; subst. cbn [map]. rewrite IH by assumption.
  rewrite (words_line t s zs Hs); [reflexivity|]. intros ->. change (zlen (@nil Z)) with 0 in Pn. lia.
Qed.
Theorem read2_text_ok c t Ls M n A : cfg_ok c -> 4 <= amax c -> M <> [] -> rect n M -> 0 < n -> 2 * zlen M * n <= amax c ->
  Forall2 (words t) Ls M -> Forall one_line Ls -> exists A', read2_text c t (unlines Ls) A = MOk A' /\ holds A' (zlen M) n (mget M).
Proof.
  intros Hc HA HM HR Pn Hmem H HL. unfold read2_text. rewrite <- (app_nil_r (unlines Ls)). rewrite getlines_all by (auto; intros []). rewrite app_nil_r.
  rewrite (words_lines t Ls M n) by auto. destruct M as [|r M]; [congruence|]. inversion HR; subst. cbn [map]. rewrite zlen_cons in *.
  destruct (read2_ok 0 c [] (mkline false r true) (map (fun r => mkline false r true) M) A) as (A' & E & Hh); cbn [ltoks leof]; rewrite ?rows_lines; auto.
  - intros ->. change (zlen (@nil Z)) with 0 in Pn. lia.
  - now apply lines_rect.
  - cbn [app ltoks] in E, Hh. rewrite rows_lines in Hh. eauto.
Qed.
Theorem print_read2 c t w M n A : cfg_ok c -> 4 <= amax c -> M <> [] -> rect n M -> 0 < n -> 2 * zlen M * n <= amax c -> Forall (Forall (in_type t)) M ->
  signed t = false \/ ~ In (tmin t) (concat M) ->
  exists s, print2 t w M = Ok s /\ exists A', read2_text c t s A = MOk A' /\ holds A' (zlen M) n (mget M).
Proof.
  intros Hc HA HM HR Pn Hmem HT Hmin. unfold print2.
  assert (signed t && existsb (fun x => x =? tmin t) (concat M) = false) as ->.
  { destruct Hmin as [->|Hmin]; [reflexivity|]. rewrite andb_comm. destruct (existsb _ _) eqn:E; [|reflexivity]. apply existsb_exists in E as (x & Hx & E).
    apply Z.eqb_eq in E. subst. contradiction. }
  eexists. split; [reflexivity|]. replace (concat (map (fun r => join t w r ++ [nl]) M)) with (unlines (map (join t w) M)).
  - apply read2_text_ok; auto.
    + clear - HT. induction HT as [|r M Hr H IH]; cbn [map]; constructor; auto.
      pose proof (join_words t w r [] Hr (Forall_nil _) [] (Forall_nil _)) as W. cbn [app] in W. now rewrite app_nil_r in W.
    + apply Forall_forall. intros s Hs. apply in_map_iff in Hs as (r & <- & Hr). rewrite Forall_forall in HT. apply join_nonl. auto.
  - unfold unlines. now rewrite map_map.
Qed.
Theorem print2_min t w M : signed t = true -> In (tmin t) (concat M) -> print2 t w M = UB.
Proof.
  intros Hs Hi. unfold print2. assert (existsb (fun x => x =? tmin t) (concat M) = true) as ->.
  - apply existsb_exists. exists (tmin t). split; [exact Hi|apply Z.eqb_refl].
  - now rewrite Hs.
Qed.
