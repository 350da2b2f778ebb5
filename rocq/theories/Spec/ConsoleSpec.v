(** Notions used to state what printing to streams, to the console and to files does. *)
From Coq Require Import Ascii.
From Flocq Require Import BinarySingleNaN.
From Verif Require Import Base.Outcome Base.ZList Model.IntModel Model.Index Model.Expr Model.Scalars Model.ArrayIO Model.FloatIO Model.Console.

(** The state of a stream that later output depends on, besides the width. *)
Definition flags (os : stream) := (os_pos os, os_point os, os_field os, os_prec os).
(** Some text was added to the stream and nothing else changed. *)
Definition added (os : stream) (s : text) (os' : stream) : Prop :=
  os_text os' = os_text os ++ s /\ os_width os' = 0 /\ flags os' = flags os.
(** What printing integers, and numbers of a floating-point type, leaves set. *)
Definition int_flags (os : stream) := (true, os_point os, os_field os, os_prec os).
Definition flt_flags (fm : format) (f : fmt) := (true, true, if f_sci fm then Scientific else Fixed, f_prec fm f).
(** The call writes this text on the stream (where the text can be produced), and leaves these flags. *)
Definition writes (m : mut stream) (os : stream) (fl : bool * bool * floatfield * Z) (r : outcome text) : Prop :=
  match r with
  | Ok s => exists os', m = MOk os' /\ os_text os' = os_text os ++ s /\ os_width os' = 0 /\ flags os' = fl
  | Fail f => exists os' u, m = MFail f os' /\ os_text os' = os_text os ++ u
  | UB => m = MUB
  end.
(** Text on the console: all else is as before. *)
Definition on_console (w : world) (s : text) (w' : world) : Prop :=
  added (w_out w) s (w_out w') /\ w_files w' = w_files w /\ w_fmt w' = w_fmt w /\ w_afmt w' = w_afmt w.
(** The file has this contents: all else is as before. *)
Definition in_file (w : world) (p : path) (s : text) (w' : world) : Prop :=
  w_files w' p = Some s /\ (forall q, q <> p -> w_files w' q = w_files w q) /\ w_out w' = w_out w /\ w_fmt w' = w_fmt w /\ w_afmt w' = w_afmt w.
(** The object prints as this text, whatever was printed before. *)
Definition prints (P : printable) (fm : format) (af : aformat) (name s : text) : Prop :=
  exists os, P fm af name fresh = MOk os /\ os_text os = s /\ os_width os = 0.
(** The text of a number. *)
Definition value_text (fm : format) (v : value) : text := match v with VB b => show_bool b | VI t z => show t z | VF f x => show_flt f fm x end.
(** Texts put together: with one character between them, and with one after each. *)
Fixpoint between (a : ascii) (l : list text) : text := match l with [] => [] | [s] => s | s :: l' => s ++ a :: between a l' end.
Definition after_each (a : ascii) (l : list text) : text := concat (map (fun s => s ++ [a]) l).
