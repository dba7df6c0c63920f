(** * Sample arithmetic

    The resampler code only uses +, -, *, a handful of constants, and
    float conversions of decimal literals on its samples.  The model is
    parametrised by a record of these operations so that one and the same
    transcription of the code can be read over
    - any arithmetic at all (bit-exactness theorems: no algebraic law is used),
    - the real numbers ([RA], in ArithR.v), and
    - IEEE-754 binary32 with round-to-nearest-even ([F32], in ArithF.v). *)
From Coq Require Import ZArith List Lia.
Open Scope Z_scope.

(** [fdy m e] is the value m * 2^e; the literal conversion below always
    produces numbers that binary32 represents exactly. *)
Record arith := {
  T :> Type;
  f0 : T;                       (* 0.0f *)
  f1 : T;                       (* 1 *)
  fhalf : T;                    (* 0.5f *)
  fadd : T -> T -> T;
  fsub : T -> T -> T;
  fmul : T -> T -> T;
  fdy : Z -> Z -> T
}.

Arguments f0 {_}.
Arguments f1 {_}.
Arguments fhalf {_}.
Arguments fadd {_}.
Arguments fsub {_}.
Arguments fmul {_}.
Arguments fdy {_}.

(** ** Decimal literals

    A C++ literal such as -1.896649020687189e-07 is written here as
    [Dec (-1896649020687189) (-22)], i.e. mantissa * 10^exponent. *)
Record dec := Dec { dmant : Z; dexp : Z }.

(** [round_rat p n d]: the p-bit floating point number (m, e), value m*2^e,
    nearest to n/d (n >= 0, d > 0), ties to even, unbounded exponent range.
    Models the compiler's decimal -> double conversion (p = 53) and the
    double -> float conversion (p = 24) for the magnitudes that occur in the
    tables (all far from the overflow and subnormal ranges). *)
Definition round_rat (p n d : Z) : Z * Z :=
  if n =? 0 then (0, 0) else
  let e0 := Z.log2 n - Z.log2 d - p in           (* quotient has p .. p+2 bits *)
  let q0 := if 0 <=? e0 then n / (d * 2 ^ e0) else (n * 2 ^ (- e0)) / d in
  let e1 := e0 + (Z.log2 q0 + 1 - p) in
  let num := if 0 <=? e1 then n else n * 2 ^ (- e1) in
  let den := if 0 <=? e1 then d * 2 ^ e1 else d in
  let q := num / den in
  let r := num - q * den in
  let q' := if 2 * r <? den then q
            else if den <? 2 * r then q + 1
            else if Z.even q then q else q + 1 in
  (q', e1).

Definition round_dyadic (p m e : Z) : Z * Z :=
  let s := Z.sgn m in
  let a := Z.abs m in
  let '(q, e') := if 0 <=? e then round_rat p (a * 2 ^ e) 1
                  else round_rat p a (2 ^ (- e)) in
  (s * q, e').

Definition dec_to_double (x : dec) : Z * Z :=
  let s := Z.sgn (dmant x) in
  let a := Z.abs (dmant x) in
  let '(q, e) := if 0 <=? dexp x then round_rat 53 (a * 10 ^ dexp x) 1
                 else round_rat 53 a (10 ^ (- dexp x)) in
  (s * q, e).

(** pandaresampler.hh:328-330: float taps[i] = d[i] * scaling, where d[i] is a
    double literal and scaling is 2.0 or 1.0 ([scal2 = 1] or [0]).  The product
    by a power of two is exact in double precision. *)
Definition lit_float (x : dec) (scal2 : Z) : Z * Z :=
  let '(m, e) := dec_to_double x in round_dyadic 24 m (e + scal2).

Definition lit {A : arith} (x : dec) (scal2 : Z) : A :=
  let '(m, e) := lit_float x scal2 in fdy m e.
