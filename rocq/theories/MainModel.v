(** * The whole program tests/testresampler.cc: perform_test, run_testresampler, main

    Printed text is not modelled.  The command line is that of OptModel.v, the tests are those of AccuracyModel.v,
    ErrorModel.v, RunModel.v and TestModel.v.  The self test has its own sequence of results of rand(). *)
From Coq Require Import String ZArith Reals List Lia Bool.
From Verif Require Import Arith Mem FirModel IirModel Tables ResamplerModel TestModel AccuracyModel OptModel ToolsModel RunModel ErrorModel.
Import ListNotations.
Open Scope list_scope.
Open Scope Z_scope.
Open Scope m_scope.

Section Program.
Context {A : arith} (D : dops A) (plat : platform).
Context (to_float : R -> A) (to_double : A -> xdouble).
Context (rnd : Z -> Z) (garbage : Z -> Z -> Z -> Z -> Z -> A) (ndebug : bool) (fuel : nat).
Context (fft : list xdouble -> Z -> xdouble * xdouble).
(** addresses of the arrays, by run; of the arrays of the self test; its random numbers and uninitialised memory *)
Context (addr taddr : Z -> blk -> Z) (rand : Z -> Z) (junk : Z -> A).
Context (atoi : string -> Z) (atof : string -> xdouble).
Notation M := (M A).

(** options of type double; the infinite ones and NaN are not modelled further than the command line *)
Definition number (x : xdouble) : R := match x with Fin r => r | _ => 0%R end.

(** test_filter_impl, testresampler.cc:353-364 *)
Definition filter_impl : M Z :=
  filter_ok <- test_filter_impl D plat taddr rand junk ;;
  ret (if filter_ok : bool then 0 else 1).

(** testresampler.cc:402-406 *)
Definition perf_input (o : options) (i : Z) : A := to_float (sin (IZR i * number (frequency o) / 44100 * 2 * PI)).

(** perform_test, testresampler.cc:374-705: the result of the test *)
Definition perform_test (t : test_type) (o : options) : M Z :=
  match t with
  | TEST_PERFORMANCE =>
      perform_performance plat (addr 0) garbage ndebug (rtype o) (perf_input o) 0 1 64000000 (block_size o) (precision o) (use_sse o) ;;;
      ret 0
  | TEST_ACCURACY =>
      r <- perform_accuracy plat to_float to_double rnd garbage ndebug fuel (rtype o) (addr 0) 0 1 (block_size o) (precision o) (use_sse o)
        (number (frequency o)) (number (freq_min o)) (number (freq_max o)) (number (freq_inc o)) (number (max_threshold_db o)) 0 ;;
      ret (snd r)
  | TEST_ERROR_TABLE =>
      perform_error_table plat to_float to_double rnd garbage ndebug fuel (rtype o) (addr 0) 0 1 (block_size o) (precision o) (use_sse o)
        (number (frequency o)) (number (freq_min o)) (number (freq_max o)) (number (freq_inc o)) 0 ;;;
      ret 0
  | TEST_ERROR_SPECTRUM =>
      perform_error_spectrum plat to_float to_double rnd garbage ndebug fuel fft (rtype o) (addr 0) 0 1 (block_size o) (precision o) (use_sse o)
        (number (frequency o)) (number (freq_min o)) (number (freq_max o)) (number (freq_inc o)) 0 ;;;
      ret 0
  | TEST_IMPULSE =>
      perform_impulse plat (addr 0) garbage ndebug (rtype o) 0 1 (precision o) (use_sse o) ;;;
      ret 0
  | TEST_FILTER_IMPL => filter_impl
  end.

(** run_testresampler, testresampler.cc:799-806; perform_test prints and returns what filter_impl returns *)
Definition run_testresampler : M unit :=
  result <- filter_impl ;;
  if ndebug then ret tt else require (result =? 0).

(** main, testresampler.cc:887-911: the exit status.  An exit (1) in TASSERT is the result false of check_accuracy_full. *)
Definition program (argv : list string) : M Z :=
  match main atoi atof (sse_available plat) argv with
  | Done Check =>
      passed <- check_accuracy_full plat to_float to_double rnd garbage ndebug fuel addr ;;
      if passed : bool then run_testresampler ;;; ret 0 else ret 1
  | Done (Perform t o) => perform_test t o
  | Exit code => ret code
  | Fault _ => fail NullDeref
  end.
End Program.
