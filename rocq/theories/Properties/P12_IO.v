(** Properties C51, C52 and C58: reading and printing arrays. *)
From Coq Require Import ZArith Ascii String.
From Verif Require Import Base.Outcome Base.ZList Model.IntModel Model.Index Model.Array1D Model.Array2D Model.ArrayIO.
From Verif Require Import Spec.ArraySpec Spec.MatrixSpec Spec.Shape2Spec Spec.IOSpec Spec.Configs Proofs.IOProofs Proofs.IOText.
Local Open Scope Z_scope.

Definition txt (s : string) : text := list_ascii_of_string s.

(** ** C51 *)
(** Whatever the stream delivers (values [toks], then end of input or a malformed token): the whole sequence in the target, or
    a failure with the target as it was.  A malformed token is reported unless assert is compiled out and exceptions are off;
    otherwise the only failure is exhausted memory. *)
Theorem C51_all_or_nothing : forall (V : Type) (zero : V) c toks e A, 8 <= amax c < two62 ->
  (exists A', read1 zero c toks e A = MOk A' /\ rep A' toks /\ (e = true \/ loud c = false)) \/
  (read1 zero c toks e A = MFail (report c) A /\ e = false /\ loud c = true) \/
  (read1 zero c toks e A = MFail BadAlloc A /\ amax c < 2 * zlen toks).
Proof. exact @read1_cases. Qed.
Print Assumptions C51_all_or_nothing.
Theorem C51_read : forall (V : Type) (zero : V) c toks A, 8 <= amax c < two62 -> 2 * zlen toks <= amax c ->
  exists A', read1 zero c toks true A = MOk A' /\ rep A' toks.
Proof. exact @read1_ok. Qed.
Print Assumptions C51_read.
Theorem C51_malformed : forall (V : Type) (zero : V) c toks A, 8 <= amax c < two62 -> 2 * zlen toks <= amax c -> loud c = true ->
  read1 zero c toks false A = MFail (report c) A.
Proof. exact @read1_bad. Qed.
Print Assumptions C51_malformed.

(** The same from the characters, for integer types. *)
Theorem C51_text : forall c t s zs A, 8 <= amax c < two62 -> 2 * zlen zs <= amax c -> words t s zs ->
  exists A', read1_text c t s A = MOk A' /\ rep A' zs.
Proof. exact read1_text_ok. Qed.
Print Assumptions C51_text.
Theorem C51_text_foreign : forall c t s zs a r A, 8 <= amax c < two62 -> 2 * zlen zs <= amax c -> loud c = true ->
  words t s zs -> foreign a -> read1_text c t (s ++ a :: r) A = MFail (report c) A.
Proof. exact read1_text_foreign. Qed.
Print Assumptions C51_text_foreign.
Theorem C51_text_sign : forall c t s zs sg a r A, 8 <= amax c < two62 -> 2 * zlen zs <= amax c -> loud c = true ->
  words t s zs -> In sg signs -> ~ In a numerals -> read1_text c t (s ++ sg :: a :: r) A = MFail (report c) A.
Proof. exact read1_text_sign. Qed.
Print Assumptions C51_text_sign.
Theorem C51_text_overflow : forall c t s zs w z a r A, 8 <= amax c < two62 -> 2 * zlen zs <= amax c -> loud c = true -> signed t = true ->
  words t s zs -> detached s -> integer w z -> ~ in_type t z -> ~ In a numerals -> read1_text c t (s ++ w ++ a :: r) A = MFail (report c) A.
Proof. exact read1_text_overflow. Qed.
Print Assumptions C51_text_overflow.
(** But a sign, or a number that does not fit, at the very end of the input is dropped silently. *)
Theorem C51_text_malformed_end : forall c t s zs e A, 8 <= amax c < two62 -> 2 * zlen zs <= amax c -> words t s zs ->
  In e (map (fun a => [a]) signs) \/ (signed t = true /\ detached s /\ exists z, integer e z /\ ~ in_type t z) ->
  exists A', read1_text c t (s ++ e) A = MOk A' /\ rep A' zs.
Proof. exact read1_text_last. Qed.
Print Assumptions C51_text_malformed_end.
(** So "every malformed token is reported" is false. *)
Theorem C51_every_malformed_token_reported_refuted : exists s zs w z,
  words I32 s zs /\ detached s /\ integer w z /\ ~ in_type I32 z /\ read1_text c_dbg I32 (s ++ w) arr_empty = MOk (mkarr [1; 2] 2).
Proof.
  exists (txt "1 2 "), [1; 2], (txt "99999999999"), 99999999999. repeat split.
  - apply (words_cons I32 [] (txt "1") 1 (txt " 2 ") [2]); [constructor|left; exists [1]|unfold in_type; cbn; lia| |cbn; tauto].
    + repeat split; [discriminate|repeat constructor; lia].
    + apply (words_cons I32 (txt " ") (txt "2") 2 (txt " ") []); [repeat constructor|left; exists [2]|unfold in_type; cbn; lia| |cbn; tauto].
      * repeat split; [discriminate|repeat constructor; lia].
      * constructor. repeat constructor.
  - right. exists (txt "1 2"), " "%char. split; [reflexivity|cbn; tauto].
  - left. exists [9; 9; 9; 9; 9; 9; 9; 9; 9; 9; 9]. repeat split; [discriminate|repeat constructor; lia].
  - unfold in_type. cbn. lia.
Qed.
Print Assumptions C51_every_malformed_token_reported_refuted.

Example C51_case :
  read1 0 c_dbg [1; 2; 3; 4; 5; 6; 7; 8; 9; 10; 11; 12; 13; 14; 15; 16; 17] true (mkarr [7] 1) =
    MOk (mkarr [1; 2; 3; 4; 5; 6; 7; 8; 9; 10; 11; 12; 13; 14; 15; 16; 17] 17) /\
  read1 0 c_off [1; 2; 3] false (mkarr [7] 1) = MFail (report c_off) (mkarr [7] 1) /\
  read1 0 c_silent [1; 2; 3] false (mkarr [7] 1) = MOk (mkarr [1; 2; 3] 3) /\
  read1_text c_dbg I32 (txt " 12  -7+5 ") (mkarr [7] 1) = MOk (mkarr [12; -7; 5] 3) /\
  read1_text c_dbg I32 (txt "1 2.5") (mkarr [7] 1) = MFail (report c_dbg) (mkarr [7] 1) /\
  read1_text c_dbg I32 (txt "1 99999999999 ") (mkarr [7] 1) = MFail (report c_dbg) (mkarr [7] 1) /\
  read1_text c_dbg I32 (txt "1 -") (mkarr [7] 1) = MOk (mkarr [1] 1) /\
  8 <= amax c_dbg < two62 /\ loud c_dbg = true /\ foreign "."%char.
Proof.
  unfold two62, foreign. repeat split; try (vm_compute; reflexivity); try (cbn; lia); cbn; intuition discriminate.
Qed.

(** ** C52 *)
(** Leading lines without values, a first row, then rows with as many values (and empty lines) give exactly that matrix. *)
Theorem C52_read : forall (V : Type) (zero : V) c B l L A, cfg_ok c -> 4 <= amax c -> Forall blank B -> ltoks l <> [] -> leof l = true ->
  rows_or_empty (zlen (ltoks l)) L -> 2 * (1 + zlen (rows L)) * zlen (ltoks l) <= amax c ->
  exists A', read2 zero c (B ++ l :: L) A = MOk A' /\ holds A' (1 + zlen (rows L)) (zlen (ltoks l)) (mget (ltoks l :: rows L)).
Proof. exact @read2_ok. Qed.
Print Assumptions C52_read.
Theorem C52_blank : forall (V : Type) (zero : V) c B A, cfg_ok c -> 4 <= amax c -> Forall blank B -> exists A', read2 zero c B A = MOk A' /\ empty2 A'.
Proof. exact @read2_blank. Qed.
Print Assumptions C52_blank.
(** Malformed first row; then, after any number of valid rows, a row that is too short (including one of white space only) or malformed. *)
Theorem C52_bad_first : forall (V : Type) (zero : V) c B l L A, cfg_ok c -> 4 <= amax c -> Forall blank B -> leof l = false -> 2 * zlen (ltoks l) <= amax c -> loud c = true ->
  read2 zero c (B ++ l :: L) A = MFail (report c) A.
Proof. exact @read2_bad_first. Qed.
Print Assumptions C52_bad_first.
Theorem C52_short_or_malformed : forall (V : Type) (zero : V) c B l L l2 L2 A, cfg_ok c -> 4 <= amax c -> Forall blank B -> ltoks l <> [] -> leof l = true ->
  rows_or_empty (zlen (ltoks l)) L -> 2 * (1 + zlen (rows L)) * zlen (ltoks l) <= amax c -> loud c = true ->
  lempty l2 = false -> zlen (ltoks l2) < zlen (ltoks l) \/ (zlen (ltoks l2) = zlen (ltoks l) /\ leof l2 = false) ->
  read2 zero c (B ++ l :: L ++ l2 :: L2) A = MFail (report c) A.
Proof. exact @read2_short. Qed.
Print Assumptions C52_short_or_malformed.
(** A row that is too long: reported with debug checks; without them, written past the end of the storage before the number of
    values is examined, unless the storage allocated for further rows is large enough. *)
Theorem C52_long : forall (V : Type) (zero : V) c B l L l2 L2 A, cfg_ok c -> 4 <= amax c -> Forall blank B -> ltoks l <> [] -> leof l = true ->
  rows_or_empty (zlen (ltoks l)) L -> 2 * (1 + zlen (rows L)) * zlen (ltoks l) <= amax c -> loud c = true ->
  lempty l2 = false -> zlen (ltoks l) < zlen (ltoks l2) ->
  read2 zero c (B ++ l :: L ++ l2 :: L2) A =
  if dbg c then MFail (report c) A
  else if (capacity (1 + zlen (rows L)) - (1 + zlen (rows L))) * zlen (ltoks l) <? zlen (ltoks l2) then MUB else MFail (report c) A.
Proof. exact @read2_long. Qed.
Print Assumptions C52_long.
(** From the characters. *)
Theorem C52_text : forall c t Ls M n A, cfg_ok c -> 4 <= amax c -> M <> [] -> rect n M -> 0 < n -> 2 * zlen M * n <= amax c ->
  Forall2 (words t) Ls M -> Forall one_line Ls -> exists A', read2_text c t (unlines Ls) A = MOk A' /\ holds A' (zlen M) n (mget M).
Proof. exact read2_text_ok. Qed.
Print Assumptions C52_text.

Definition ln (l : list Z) : line Z := mkline false l true.
Definition blank_ln : line Z := mkline true [] true.
Example C52_case : let A := mkarr2 1 1 (mkarr [9] 1) in
  read2 0 c_dbg [blank_ln; ln [1; 2; 3]; ln [4; 5; 6]; blank_ln; ln [7; 8; 9]] A = MOk (mkarr2 3 3 (mkarr [1; 2; 3; 4; 5; 6; 7; 8; 9] 9)) /\
  read2 0 c_off [ln [1; 2; 3]; ln [4; 5]] A = MFail (report c_off) A /\
  read2 0 c_dbg [ln [1; 2]; ln [4; 5; 6]] A = MFail (report c_dbg) A /\
  read2 0 c_off [ln [1; 2]; ln [4; 5; 6]] A = MUB /\
  read2 0 c_off [ln [1; 2]; ln [3; 4]; ln [4; 5; 6]] A = MFail (report c_off) A /\
  read2 0 c_off [ln [1; 2]; ln [3; 4]; ln [4; 5; 6; 7; 8]] A = MUB /\
  read2 0 c_dbg [blank_ln; blank_ln] A = MOk (mkarr2 0 0 (mkarr [] 0)) /\
  read2_text c_dbg I32 (txt "1 2" ++ [nl] ++ txt "3 4" ++ [nl]) A = MOk (mkarr2 2 2 (mkarr [1; 2; 3; 4] 4)) /\
  rows_or_empty 3 [ln [4; 5; 6]; blank_ln; ln [7; 8; 9]] /\ loud c_off = true /\ capacity 1 = 2 /\ capacity 2 = 4.
Proof.
  repeat split; try (vm_compute; reflexivity). repeat constructor; (left; reflexivity) || (right; repeat split).
Qed.

(** ** C58 *)
(** Printing then reading gives back the array: column and row style, for every integer type; reading succeeds in every configuration. *)
Theorem C58_round_trip : forall c t l A, 8 <= amax c < two62 -> 2 * zlen l <= amax c -> Forall (in_type t) l ->
  (exists A', read1_text c t (print1_col t l) A = MOk A' /\ rep A' l) /\ (exists A', read1_text c t (print1_row t l) A = MOk A' /\ rep A' l).
Proof. exact print_read1. Qed.
Print Assumptions C58_round_trip.
(** Two dimensions, whatever the column width; printing a matrix with the smallest value of a signed type is undefined. *)
Theorem C58_round_trip2 : forall c t w M n A, cfg_ok c -> 4 <= amax c -> M <> [] -> rect n M -> 0 < n -> 2 * zlen M * n <= amax c -> Forall (Forall (in_type t)) M ->
  signed t = false \/ ~ In (tmin t) (concat M) ->
  exists s, print2 t w M = Ok s /\ exists A', read2_text c t s A = MOk A' /\ holds A' (zlen M) n (mget M).
Proof. exact print_read2. Qed.
Print Assumptions C58_round_trip2.
Theorem C58_smallest_value : forall t w M, signed t = true -> In (tmin t) (concat M) -> print2 t w M = UB.
Proof. exact print2_min. Qed.
Print Assumptions C58_smallest_value.

Example C58_case :
  print1_col I32 [5; -12; 0] = txt "+5" ++ [nl] ++ txt "-12" ++ [nl] ++ txt "+0" ++ [nl] /\ print1_row U32 [5; 12] = txt "5  12" ++ [nl] /\
  print2 I32 4 [[5; -12]; [0; 123]] = Ok (txt "  +5   -12" ++ [nl] ++ txt "  +0  +123" ++ [nl]) /\
  read2_text c_dbg I32 (txt "  +5   -12" ++ [nl] ++ txt "  +0  +123" ++ [nl]) arr2_empty = MOk (mkarr2 2 2 (mkarr [5; -12; 0; 123] 4)) /\
  Forall (in_type I32) [5; -12; 0] /\ rect 2 [[5; -12]; [0; 123]] /\ ~ In (tmin I32) (concat [[5; -12]; [0; 123]]).
Proof.
  unfold in_type, rect. do 4 (split; [vm_compute; reflexivity|]). repeat split.
  - repeat constructor; cbn; lia.
  - repeat constructor.
  - cbn. lia.
Qed.
