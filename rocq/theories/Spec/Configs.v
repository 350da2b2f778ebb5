(** Concrete build configurations used in the non-vacuity examples. *)
From Verif Require Import Base.Outcome.
(** Debug checks on, errors reported as exceptions. *)
Definition c_dbg : cfg := mkcfg true true false 1000000.
(** Debug checks on, errors reported by assert. *)
Definition c_abort : cfg := mkcfg true false false 1000000.
(** STRICT_DEBUG_OFF. *)
Definition c_off : cfg := mkcfg false true false 1000000.
(** Debug checks compiled in but NDEBUG defined and no exceptions: checks print and continue. *)
Definition c_silent : cfg := mkcfg true false true 1000000.
