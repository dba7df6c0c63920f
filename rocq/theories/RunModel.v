(** * The impulse response and performance tests: tests/testresampler.cc, perform_test<TEST_IMPULSE, RESAMPLE>
    and perform_test<TEST_PERFORMANCE, RESAMPLE>

    Measured times are not modelled. *)
From Coq Require Import ZArith List Lia Bool.
From Verif Require Import Arith Mem FirModel IirModel Tables ResamplerModel AccuracyModel ToolsModel.
Import ListNotations.
Open Scope Z_scope.
Open Scope m_scope.

Section Run.
Context {A : arith} (plat : platform).
(** addresses; contents of the stack arrays by number of the repetition, and of the call in it *)
Context (addr : blk -> Z) (garbage : Z -> Z -> Z -> Z -> Z -> A) (ndebug : bool).
Notation M := (M A).

(** testresampler.cc:392-398, around the test itself.  [idu], [idd]: identities of the two objects *)
Definition with_resamplers {X} (idu idd block_size precision : Z) (use_sse : bool) (test : resampler -> resampler -> M X) : M X :=
  u <- construct plat idu UP 2 precision use_sse FILTER_FIR ;;
  d <- construct plat idd DOWN 2 precision use_sse FILTER_FIR ;;
  let ups := fst u in let downs := fst d in
  b <- lift (sse_enabled ups) ;; require (Bool.eqb use_sse b) ;;;
  b <- lift (sse_enabled downs) ;; require (Bool.eqb use_sse b) ;;;
  alloc in_a (u32 (block_size * 2)) (fun _ => f0) ;;;
  alloc out_a (u32 (block_size * 2)) (fun _ => f0) ;;;
  alloc out2_a (u32 (block_size * 2)) (fun _ => f0) ;;;
  x <- test ups downs ;;
  free out2_a ;;; free out_a ;;; free in_a ;;;
  ret x.

(** testresampler.cc:413-424, 646-657 *)
Definition resample_once (rt : resample_type) (rep : Z) (ups downs : resampler) (block_size : Z) : M unit :=
  match rt with
  | RES_DOWNSAMPLE => process_block addr ndebug (garbage rep 0) downs (Ptr in_a 0) block_size (Ptr out_a 0)
  | RES_SUBSAMPLE =>
      process_block addr ndebug (garbage rep 0) downs (Ptr in_a 0) block_size (Ptr out_a 0) ;;;
      process_block addr ndebug (garbage rep 1) ups (Ptr out_a 0) (block_size / 2) (Ptr out2_a 0)
  | RES_UPSAMPLE => process_block addr ndebug (garbage rep 0) ups (Ptr in_a 0) block_size (Ptr out_a 0)
  | RES_OVERSAMPLE =>
      process_block addr ndebug (garbage rep 0) ups (Ptr in_a 0) block_size (Ptr out_a 0) ;;;
      process_block addr ndebug (garbage rep 1) downs (Ptr out_a 0) (u32 (block_size * 2)) (Ptr out2_a 0)
  end.

(** testresampler.cc:637-666; the result: the values that are printed *)
Definition IMPULSE_SIZE := 150.
Definition printed_array (rt : resample_type) : blk := match rt with RES_OVERSAMPLE | RES_SUBSAMPLE => out2_a | _ => out_a end.
Definition perform_impulse (rt : resample_type) (idu idd precision : Z) (use_sse : bool) : M (list A) :=
  with_resamplers idu idd IMPULSE_SIZE precision use_sse (fun ups downs =>
    store (Ptr in_a 0) f1 ;;;
    for_up (Z.to_nat (IMPULSE_SIZE - 1)) 1
      (fun i _ => store (Ptr in_a i) f0 ;;; store (Ptr out_a i) f0 ;;; store (Ptr out2_a i) f0) tt ;;;
    resample_once rt 0 ups downs IMPULSE_SIZE ;;;
    contents (printed_array rt) IMPULSE_SIZE).

(** testresampler.cc:400-436; [value]: sin (i * test_frequency / 44100.0 * 2 * M_PI) as float, or whatever it is
    if the frequency is not a number; [samples]: 64000000 or 640000; the result: the number of samples (k).
    Only for block_size > 0, which C77 shows for all command lines: the division by zero is not modelled. *)
Definition perform_performance (rt : resample_type) (value : Z -> A) (idu idd samples block_size precision : Z) (use_sse : bool) : M Z :=
  with_resamplers idu idd block_size precision use_sse (fun ups downs =>
    fill in_a block_size value ;;;
    k <- for_up (Z.to_nat (samples / block_size)) 0 (fun i k => resample_once rt i ups downs block_size ;;; ret (k + block_size)) 0 ;;
    ret (match rt with RES_DOWNSAMPLE => k / 2 | _ => k end)).
End Run.
