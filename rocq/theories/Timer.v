(** Model of lib/sia/rust/cli/src/timer.rs. *)
From Coq Require Import String Ascii DecimalString ZArith.
From Coq Require DecimalN.
Open Scope Z_scope.

(** `{}` of an unsigned integer *)
Definition show (n : Z) : string := NilZero.string_of_uint (N.to_uint (Z.to_N n)).
(** `{:02}` of an unsigned integer: at least two digits, padded with zeros *)
Definition show02 (n : Z) : string := if n <? 10 then ("0" ++ show n)%string else show n.

(** `Elapsed` displayed, lib/sia/rust/cli/src/timer.rs:12-22: a Duration is [secs] whole seconds (u64) and [nanos] (u32, below 10^9);
    the text is UTF-8. *)
Definition fmt_elapsed (secs nanos : Z) : string :=
  if secs =? 0 then
    if nanos <? 1000 then (show nanos ++ " ns")%string
    else if nanos <? 1000000 then (show (nanos / 1000) ++ " µs")%string
    else (show (nanos / 1000000) ++ " ms")%string
  else if secs <? 10 then (show secs ++ "." ++ show02 (nanos / 10000000) ++ " s")%string
  else (show secs ++ " s")%string.
