(** * tests/testmultidelay.cc and tests/testaddr.cc

    As in AccuracyModel.v: the resamplers work with any arithmetic A, values of
    type double are real numbers, except where they are read from float arrays
    (those may be infinite or NaN).  Of the printed text only the lines with
    new_rate, delay and error are modelled.  Objects are not deallocated: every
    run gets new identities.  Overflow of int is not modelled (it needs a
    negative ratio), and the division by a ratio of 0 is reported as the
    call through a null pointer that would follow it. *)
From Coq Require Import ZArith Reals List Lia Bool String.
From Flocq Require Import Core BinarySingleNaN.
From Verif Require Import Arith ArithR ArithF Mem FirModel IirModel Tables ResamplerModel AccuracyModel.
Import ListNotations.
Open Scope Z_scope.
Open Scope m_scope.

(** s - x *)
Definition xrsub (s : R) (x : xdouble) : xdouble :=
  match x with Fin r => Fin (s - r) | PInf => MInf | MInf => PInf | NaN => NaN end.

(** testmultidelay.cc:17-28 *)
Record test := Test {
  t_up : bool; t_down : bool; t_over : bool; t_ratio : Z; t_prec : Z; t_fir : bool; t_iir : bool; t_iir_sse : bool }.

(** what is printed, testmultidelay.cc:84, 101 *)
Record report := Report { p_rate : R; p_delay : R; p_error : xdouble }.

Definition rate : R := 44100.
Definition freq : R := 1000.
Definition SAMPLES := 1024.
Definition MAX_RATIO := 8.
Definition max_error : R := 0.00005.

Section Multi.
Context {A : arith} (plat : platform).
Context (to_float : R -> A) (to_double : A -> xdouble).
(** addresses during the run, contents of the stack arrays during the two calls of process_block;
    asserts disabled in the test, and in hiir *)
Context (addr : blk -> Z) (garbage : Z -> Z -> Z -> Z -> A) (nassert ndebug : bool).
Notation M := (M A).

Definition assert_ (b : bool) : M unit := if nassert then ret tt else require b.

Definition t_sse (t : test) : bool := t_fir t || t_iir_sse t.
Definition t_filter (t : test) : rfilter := if t_fir t then FILTER_FIR else FILTER_IIR.

(** testmultidelay.cc:57-82: out_samples, new_rate, delay; array tmp is out2_a *)
Definition resample_once (t : test) (ups downs : resampler) : M (Z * R * R) :=
  if t_up t then
    process_block addr ndebug (garbage 0) ups (Ptr in_a 0) SAMPLES (Ptr out_a 0) ;;;
    d <- delay_value ups ;;
    ret (SAMPLES * t_ratio t, (rate * IZR (t_ratio t))%R, d)
  else if t_down t then
    (if t_ratio t =? 0 then fail NullDeref else ret tt) ;;;
    process_block addr ndebug (garbage 0) downs (Ptr in_a 0) SAMPLES (Ptr out_a 0) ;;;
    d <- delay_value downs ;;
    ret (Z.quot SAMPLES (t_ratio t), (rate / IZR (t_ratio t))%R, d)
  else
    u <- delay_value ups ;; d <- delay_value downs ;;
    alloc out2_a (SAMPLES * MAX_RATIO) (fun _ => f0) ;;;
    process_block addr ndebug (garbage 0) ups (Ptr in_a 0) SAMPLES (Ptr out2_a 0) ;;;
    process_block addr ndebug (garbage 1) downs (Ptr out2_a 0) (u32 (SAMPLES * t_ratio t)) (Ptr out_a 0) ;;;
    free out2_a ;;;
    ret (SAMPLES, rate, (u / IZR (t_ratio t) + d)%R).

(** testmultidelay.cc:86-99 *)
Definition find_error (verbose : bool) (out_samples : Z) (new_rate delay : R) : M xdouble :=
  for_up (Z.to_nat out_samples) 0
    (fun i error =>
       let pos := (IZR i - delay)%R in
       let s := if Rle_dec 0 pos then sin (pos * freq / new_rate * 2 * PI) else 0%R in
       error <- (if Rlt_dec delay pos then c <- load (Ptr out_a i) ;; ret (xmax error (xrsub s (to_double c))) else ret error) ;;
       (if (verbose : bool) then c <- load (Ptr out_a i) ;; ret tt else ret tt) ;;;
       ret error)
    (Fin 0).

(** Test::run, testmultidelay.cc:30-103.  ratio is converted to uint for the constructor *)
Definition run (idu idd : Z) (t : test) (verbose : bool) : M report :=
  assert_ (t_up t || t_down t || t_over t) ;;;
  assert_ (t_fir t || t_iir t || t_iir_sse t) ;;;
  u <- construct plat idu UP (u32 (t_ratio t)) (t_prec t) (t_sse t) (t_filter t) ;;
  d <- construct plat idd DOWN (u32 (t_ratio t)) (t_prec t) (t_sse t) (t_filter t) ;;
  assert_ (t_ratio t <=? MAX_RATIO) ;;;
  alloc in_a SAMPLES (fun _ => f0) ;;;
  alloc out_a (SAMPLES * MAX_RATIO) (fun _ => f0) ;;;
  for_up (Z.to_nat SAMPLES) 0 (fun i _ => store (Ptr in_a i) (to_float (sin (IZR i * freq / rate * 2 * PI)))) tt ;;;
  r <- resample_once t (fst u) (fst d) ;;
  let '(out_samples, new_rate, delay) := r in
  error <- find_error verbose out_samples new_rate delay ;;
  free out_a ;;; free in_a ;;;
  ret (Report new_rate delay error).
End Multi.

(** the runs of main without arguments, testmultidelay.cc:110-127 *)
Definition default_tests : list test :=
  flat_map (fun udo =>
    flat_map (fun ratio =>
      map (fun prec => Test (udo =? 1) (udo =? 2) (udo =? 3) ratio prec true false false) [PREC_96DB; PREC_120DB; PREC_144DB])
    [2; 4; 8])
  [1; 2; 3].

Section Main.
Context {A : arith} (plat : platform) (to_float : R -> A) (to_double : A -> xdouble).
(** by the identity of the first object of the run *)
Context (addr : Z -> blk -> Z) (garbage : Z -> Z -> Z -> Z -> Z -> A) (nassert ndebug : bool).
Notation M := (M A).

Fixpoint run_tests (id : Z) (l : list test) : M (list report) :=
  match l with
  | [] => ret []
  | t :: l =>
      r <- run plat to_float to_double (addr id) (garbage id) nassert ndebug id (id + 1) t false ;;
      rs <- run_tests (id + 2) l ;;
      ret (r :: rs)
  end.

(** testmultidelay.cc:131-143.  A missing argument is a null pointer (or beyond the end of argv).
    [atoi]: the function of the C library. *)
Definition argument (args : list string) (k : nat) : M string :=
  match nth_error args k with Some s => ret s | None => fail NullDeref end.
Definition test_of (atoi : string -> Z) (a1 a2 a3 a4 : string) : test :=
  Test (String.eqb a1 "up") (String.eqb a1 "down") (String.eqb a1 "over") (atoi a2) (find_precision_for_bits (u32 (atoi a3)))
    (String.eqb a4 "fir") (String.eqb a4 "iir") (String.eqb a4 "iir-sse").
Definition run_arguments (atoi : string -> Z) (args : list string) : M (list report) :=
  a1 <- argument args 0 ;; a2 <- argument args 1 ;; a3 <- argument args 2 ;; a4 <- argument args 3 ;;
  r <- run plat to_float to_double (addr 0) (garbage 0) nassert ndebug 0 1 (test_of atoi a1 a2 a3 a4) true ;;
  ret [r].

(** main, testmultidelay.cc:105-145: exit status and what is printed; [args]: the arguments without the name of the program *)
Definition multidelay_main (atoi : string -> Z) (args : list string) : M (Z * list report) :=
  rs <- match args with [] => run_tests 0 default_tests | _ => run_arguments atoi args end ;;
  ret (0, rs).
End Main.

(** ** tests/testaddr.cc *)
Section Addr.
Context {A : arith} (plat : platform).
(** by the identity of the first object *)
Context (addr : Z -> blk -> Z) (garbage : Z -> Z -> Z -> Z -> Z -> A) (ndebug : bool).
Notation M := (M A).

(** testaddr.cc:20-31; the default filter is FILTER_FIR *)
Definition addr_body (id n over p : Z) : M unit :=
  u <- construct plat id UP over (find_precision_for_bits p) true FILTER_FIR ;;
  d <- construct plat (id + 1) DOWN over (find_precision_for_bits p) true FILTER_FIR ;;
  process_block (addr id) ndebug (garbage id 0) (fst u) (Ptr in_a 0) n (Ptr out_a 0) ;;;
  process_block (addr id) ndebug (garbage id 1) (fst d) (Ptr out_a 0) (u32 (n * over)) (Ptr in_a 0).

Fixpoint addr_bits (id n over : Z) (ps : list Z) : M unit :=
  match ps with
  | [] => ret tt
  | p :: ps => addr_body id n over p ;;; addr_bits (id + 2) n over ps
  end.

(** testaddr.cc:14-33; the identity of the next object is the result *)
Definition bits_list : list Z := [1; 8; 12; 16; 20; 24].
Definition addr_over (id n over : Z) : M Z :=
  alloc in_a n (fun _ => f0) ;;;
  alloc out_a (u32 (n * over)) (fun _ => f0) ;;;
  addr_bits id n over bits_list ;;;
  free out_a ;;; free in_a ;;;
  ret (id + 2 * Z.of_nat (List.length bits_list)).

Fixpoint addr_overs (id n : Z) (overs : list Z) : M Z :=
  match overs with
  | [] => ret id
  | over :: overs => id' <- addr_over id n over ;; addr_overs id' n overs
  end.

(** main, testaddr.cc:9-37; in the test [count] is 100 *)
Definition addr_main (count : Z) : M Z :=
  for_up (Z.to_nat count) 0 (fun n id => addr_overs id n [1; 2; 4; 8]) 0 ;;;
  ret 0.
End Addr.
