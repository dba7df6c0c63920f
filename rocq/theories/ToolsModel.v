(** * tests/testmultiperf.cc, tests/testsimple.cc, tests/testdownmulti.cc, tests/testdistort.cc

    The resamplers work with any arithmetic A.  Values of type double are real
    numbers.  Of testdownmulti.cc the resampling is modelled, not the Fourier
    transform (an external library) and what is computed from it; of
    testdistort.cc the modes "fir" and "iir", not "zita" (an external library).
    What is measured with gettimeofday is not modelled. *)
From Coq Require Import ZArith Reals List Lia Bool String.
From Verif Require Import Arith Mem FirModel IirModel Tables ResamplerModel AccuracyModel MultiModel.
Import ListNotations.
Open Scope Z_scope.
Open Scope m_scope.

(** ** tests/testmultiperf.cc *)
Section Perf.
Context {A : arith} (plat : platform).
(** addresses; contents of the stack arrays by number of the repetition, and of the call in it *)
Context (addr : blk -> Z) (garbage : Z -> Z -> Z -> Z -> Z -> A) (nassert ndebug : bool).
Notation M := (M A).

Definition PERF_SAMPLES := 128.
Definition PERF_COUNT := 1000000.

(** the body of the loop, testmultiperf.cc:66-70; the size is converted from int to uint *)
Definition perf_body (up down : bool) (ups downs : resampler) (ratio i : Z) : M unit :=
  (if up then process_block addr ndebug (garbage i 0) ups (Ptr in_a 0) PERF_SAMPLES (Ptr out_a 0) else ret tt) ;;;
  (if down then process_block addr ndebug (garbage i 1) downs (Ptr out_a 0) (u32 (PERF_SAMPLES * ratio)) (Ptr in_a 0) else ret tt).

(** testmultiperf.cc:50-73; the result is the exit status *)
Definition perf_run (up down : bool) (ratio prec : Z) (sse : bool) (filter : rfilter) (count : Z) : M Z :=
  u <- construct plat 0 UP (u32 ratio) prec sse filter ;;
  d <- construct plat 1 DOWN (u32 ratio) prec sse filter ;;
  MultiModel.assert_ nassert (ratio <=? MAX_RATIO) ;;;
  alloc in_a PERF_SAMPLES (fun _ => f0) ;;;
  alloc out_a (PERF_SAMPLES * MAX_RATIO) (fun _ => f0) ;;;
  for_up (Z.to_nat count) 0 (fun i _ => perf_body up down (fst u) (fst d) ratio i) tt ;;;
  free out_a ;;; free in_a ;;;
  ret 0.

(** main, testmultiperf.cc:21-74; [args]: the arguments without the name of the program, [count]: the number of
    repetitions, in the program PERF_COUNT *)
Definition perf_main (atoi : string -> Z) (count : Z) (args : list string) : M Z :=
  match args with
  | [a1; a2; a3; a4] =>
      let over := String.eqb a1 "over" in
      let up := String.eqb a1 "up" || over in
      let down := String.eqb a1 "down" || over in
      MultiModel.assert_ nassert (up || down) ;;;
      let fir := String.eqb a4 "fir" in
      let iir := String.eqb a4 "iir" in
      let iir_sse := String.eqb a4 "iir-sse" in
      MultiModel.assert_ nassert (fir || iir || iir_sse) ;;;
      perf_run up down (atoi a2) (find_precision_for_bits (u32 (atoi a3))) (fir || iir_sse)
        (if fir then FILTER_FIR else FILTER_IIR) count
  | _ => ret 1
  end.
End Perf.

(** ** Programs that resample whole arrays *)
Section Arrays.
Context {A : arith} (plat : platform).
Context (addr : blk -> Z) (garbage : Z -> Z -> Z -> Z -> A) (ndebug : bool).
Notation M := (M A).

(** for (i = 0; i < n; i++) a[i] = v (i) *)
Definition fill (a : blk) (n : Z) (v : Z -> A) : M unit :=
  for_up (Z.to_nat n) 0 (fun i _ => store (Ptr a i) (v i)) tt.
(** the elements one after the other, as they are printed or passed on *)
Definition contents (a : blk) (n : Z) : M (list A) :=
  for_up (Z.to_nat n) 0 (fun i l => x <- load (Ptr a i) ;; ret (l ++ [x])) [].

(** vector in (n), out (n_out); one object, one call for everything.  [id]: identity of the object.
    The result is what the two arrays contain in the end. *)
Definition once (id : Z) (md : rmode) (ratio prec : Z) (sse : bool) (f : rfilter) (n n_out : Z) (v : Z -> A) : M (list A * list A) :=
  alloc in_a n (fun _ => f0) ;;;
  alloc out_a n_out (fun _ => f0) ;;;
  fill in_a n v ;;;
  r <- construct plat id md (u32 ratio) prec sse f ;;
  process_block addr ndebug (garbage 0) (fst r) (Ptr in_a 0) (u32 n) (Ptr out_a 0) ;;;
  x <- contents in_a n ;;
  y <- contents out_a n_out ;;
  free out_a ;;; free in_a ;;;
  ret (x, y).

(** main, testsimple.cc:8-26; the default filter is FILTER_FIR *)
Definition simple_value (to_float : R -> A) (i : Z) : A := to_float (sin (440 * IZR i / 48000 * 2 * PI)).
Definition simple_main (to_float : R -> A) : M (list A * list A) :=
  once 0 UP 2 PREC_96DB true FILTER_FIR 256 512 (simple_value to_float).

(** testdownmulti.cc:11-17, 38-54: the samples that are transformed *)
Definition window_blackman (x : R) : R :=
  (if Rlt_dec 1 (Rabs x) then 0 else 0.42 + 0.5 * cos (PI * x) + 0.08 * cos (2 * PI * x))%R.
Definition FFT_SIZE := 8192.
Definition amps_value (to_float : R -> A) (ds : Z) (freq : R) (i : Z) : A :=
  to_float (sin (IZR i * freq / (44100 * IZR ds) * 2 * PI) * window_blackman ((2 * IZR i - IZR FFT_SIZE) / IZR FFT_SIZE))%R.
Definition check_amps (to_float : R -> A) (id ds : Z) (freq : R) (prec : Z) (fir : bool) : M (list A) :=
  xy <- once id DOWN ds prec false (if fir then FILTER_FIR else FILTER_IIR) (FFT_SIZE * ds) FFT_SIZE (amps_value to_float ds freq) ;;
  ret (snd xy).

(** main, testdistort.cc:36-122, in the modes "fir" and "iir".  [sweep]: the samples computed in lines 49-56,
    [shape]: atan (x * 3) / M_PI * 2 in float.  in = out copies the array; here the program goes on with out
    itself.  The result: the samples that are printed, before they are divided by their maximum. *)
Definition DISTORT_SIZE := 48000 * 5.
Definition distort_main (sweep : Z -> A) (shape : A -> A) (over : Z) (iir : bool) : M (list A) :=
  let filter := if iir then FILTER_IIR else FILTER_FIR in
  let sse := negb iir in
  alloc in_a DISTORT_SIZE (fun _ => f0) ;;;
  fill in_a DISTORT_SIZE sweep ;;;
  if over =? 0 then
    x <- contents in_a DISTORT_SIZE ;;
    free in_a ;;; ret x
  else
    u <- construct plat 0 UP (u32 over) PREC_96DB sse filter ;;
    alloc out_a (DISTORT_SIZE * over) (fun _ => f0) ;;;
    process_block addr ndebug (garbage 0) (fst u) (Ptr in_a 0) DISTORT_SIZE (Ptr out_a 0) ;;;
    free in_a ;;;
    for_up (Z.to_nat (DISTORT_SIZE * over)) 0 (fun i _ => x <- load (Ptr out_a i) ;; store (Ptr out_a i) (shape x)) tt ;;;
    d <- construct plat 1 DOWN (u32 over) PREC_96DB sse filter ;;
    alloc out2_a (DISTORT_SIZE * over / over) (fun _ => f0) ;;;
    process_block addr ndebug (garbage 1) (fst d) (Ptr out_a 0) (u32 (DISTORT_SIZE * over)) (Ptr out2_a 0) ;;;
    free out_a ;;;
    x <- contents out2_a (DISTORT_SIZE * over / over) ;;
    free out2_a ;;;
    ret x.
End Arrays.

(** main, testdownmulti.cc:83-103, with three arguments: the frequencies 100, 200, ... below 22050 * ds *)
Section DownMulti.
Context {A : arith} (plat : platform).
(** by the number of the call *)
Context (addr : Z -> blk -> Z) (garbage : Z -> Z -> Z -> Z -> Z -> A) (nassert ndebug : bool).

Definition downmulti_main (to_float : R -> A) (atoi : string -> Z) (args : list string) : M A (Z * list (list A)) :=
  match args with
  | [a1; a2; a3] =>
      let ds := atoi a1 in
      let prec := find_precision_for_bits (u32 (atoi a2)) in
      let fir := String.eqb a3 "fir" in
      MultiModel.assert_ nassert (fir || String.eqb a3 "iir") ;;;
      ys <- for_up (Z.to_nat ((22050 * ds - 1) / 100)) 0
        (fun k ys =>
           y <- check_amps plat (addr k) (garbage k) ndebug to_float k ds (100 * (IZR k + 1)) prec fir ;;
           ret (ys ++ [y])) [] ;;
      ret (0, ys)
  | _ => ret (1, [])
  end.
End DownMulti.
