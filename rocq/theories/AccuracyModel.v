(** * The accuracy tests: tests/testresampler.cc, perform_test<TEST_ACCURACY, RESAMPLE>, run_accuracy, check_accuracy_full

    The loop that TEST_ACCURACY, TEST_ERROR_TABLE and TEST_ERROR_SPECTRUM share has what is done with a sample as a parameter.

    The resamplers work with any arithmetic A.  Values of type double are real
    numbers (rounding in double precision is not modelled), except that the
    difference between an output sample and the expected value may be infinite
    or NaN.  Printed text is not modelled. *)
From Coq Require Import ZArith Reals List Lia Bool.
From Flocq Require Import Core BinarySingleNaN.
From Verif Require Import Arith ArithR ArithF Mem FirModel IirModel Tables ResamplerModel.
Import ListNotations.
Open Scope Z_scope.
Open Scope m_scope.

(** testresampler.cc:94-100 *)
Inductive resample_type := RES_DOWNSAMPLE | RES_UPSAMPLE | RES_SUBSAMPLE | RES_OVERSAMPLE.

(** doubles that may be infinite or NaN *)
Inductive xdouble := Fin (r : R) | PInf | MInf | NaN.
Definition xsub (a : xdouble) (b : R) : xdouble := match a with Fin r => Fin (r - b) | _ => a end.
(** a < b *)
Definition xlt (a b : xdouble) : bool :=
  match a, b with
  | NaN, _ | _, NaN => false
  | PInf, _ | _, MInf => false
  | MInf, _ | _, PInf => true
  | Fin x, Fin y => if Rlt_dec x y then true else false
  end.
(** std::max (a, b) *)
Definition xmax (a b : xdouble) : xdouble := if xlt a b then b else a.
(** 20 * log (d) / log (10) > threshold; log (0) is minus infinity, log of negative numbers is NaN *)
Definition db_above (d : xdouble) (threshold : R) : bool :=
  match d with
  | Fin r => if Rlt_dec 0 r then (if Rlt_dec threshold (20 * ln r / ln 10) then true else false) else false
  | PInf => true
  | _ => false
  end.

(** the arrays in_a, out_a, out2_a, testresampler.cc:397-398 *)
Definition in_a : blk := User 0.
Definition out_a : blk := User 1.
Definition out2_a : blk := User 2.

Section Accuracy.
Context {A : arith} (plat : platform).
(** conversions between float and double *)
Context (to_float : R -> A) (to_double : A -> xdouble).
(** the results of rand(); contents of stack arrays during the calls of process_block,
    by the number of rand() calls so far; asserts disabled in hiir; bounds for the loops *)
Context (rnd : Z -> Z) (garbage : Z -> Z -> Z -> Z -> Z -> A) (ndebug : bool) (fuel : nat).
Notation M := (M A).

Definition lift {X} (r : res X) : M X := fun m => match r with Ok x => Ok (x, m) | Err e => Err e end.
Definition require (b : bool) : M unit := if b then ret tt else fail AssertFail.

(** while (phase > 2 * M_PI) phase -= 2 * M_PI; testresampler.cc:489-490, 572-573 *)
Definition wrap (phase : R) : M R :=
  while 2 (fun p => if Rlt_dec (2 * PI) p then true else false) (fun p => ret (p - 2 * PI)%R) phase.

(** testresampler.cc:485-491 *)
Definition fill_input (freq : R) (misalign bs : Z) (phase : R) : M R :=
  for_up (Z.to_nat bs) 0
    (fun i phase =>
       store (Ptr in_a (i + misalign)) (to_float (sin phase)) ;;;
       wrap (phase + freq / 44100 * 2 * PI)%R)
    phase.

(** testresampler.cc:492-503 *)
Definition resample_block (rt : resample_type) (addr : blk -> Z) (pos : Z) (ups downs : resampler) (misalign bs : Z) : M unit :=
  match rt with
  | RES_DOWNSAMPLE => process_block addr ndebug (garbage pos 0) downs (Ptr in_a misalign) bs (Ptr out_a 0)
  | RES_SUBSAMPLE =>
      process_block addr ndebug (garbage pos 0) downs (Ptr in_a misalign) bs (Ptr out_a 0) ;;;
      process_block addr ndebug (garbage pos 1) ups (Ptr out_a 0) (bs / 2) (Ptr out2_a 0)
  | RES_UPSAMPLE => process_block addr ndebug (garbage pos 0) ups (Ptr in_a misalign) bs (Ptr out_a 0)
  | RES_OVERSAMPLE =>
      process_block addr ndebug (garbage pos 0) ups (Ptr in_a misalign) bs (Ptr out_a 0) ;;;
      process_block addr ndebug (garbage pos 1) downs (Ptr out_a 0) (bs * 2) (Ptr out2_a 0)
  end.

(** what the output is compared with, testresampler.cc:505-541 *)
Record expected := Expected { e_shift : R; e_factor : R; e_volume : R; e_bs : Z; e_check : blk }.
Definition delay_value (r : resampler) : M R := d <- lift (delay r) ;; ret (B2R (d : b64)).
Definition volume (freq : R) : R := if Rlt_dec freq 11025 then 1%R else 0%R.
Definition expect (rt : resample_type) (freq : R) (ups downs : resampler) (bs : Z) : M expected :=
  match rt with
  | RES_UPSAMPLE => d <- delay_value ups ;; ret (Expected d (1 / 2) 1 (bs * 2) out_a)
  | RES_DOWNSAMPLE => d <- delay_value downs ;; ret (Expected d 2 (volume freq) (bs / 2) out_a)
  | RES_OVERSAMPLE => u <- delay_value ups ;; d <- delay_value downs ;; ret (Expected (u * (1 / 2) + d)%R 1 1 bs out2_a)
  | RES_SUBSAMPLE => d <- delay_value downs ;; u <- delay_value ups ;; ret (Expected (d * 2 + u)%R 1 (volume freq) bs out2_a)
  end.

Section Scan.
(** what is done with a sample: its number, its value and the expected value, testresampler.cc:557-569 *)
Context {Seen : Type} (look : Z -> A -> R -> Seen -> Seen).

(** testresampler.cc:543-574; the state is k, output_phase, and what the samples are collected in *)
Definition check_output (freq : R) (e : expected) (order4 : Z) (s : Z * R * Seen) : M (Z * R * Seen) :=
  for_up (Z.to_nat (e_bs e)) 0
    (fun i s =>
       let '(k, output_phase, seen) := s in
       seen <-
         (if order4 <? k then
            let correct_output := (sin (output_phase - e_shift e * 2 * e_factor e * freq / 44100 * PI) * e_volume e)%R in
            c <- load (Ptr (e_check e) i) ;;
            ret (look k c correct_output seen)
          else ret seen) ;;
       output_phase <- wrap (output_phase + e_factor e * freq / 44100 * 2 * PI)%R ;;
       ret (k + 1, output_phase, seen))
    s.

(** the state of the loop for one frequency: calls of rand() so far, k, phase, output_phase, what was collected *)
Record scan := Scan { s_pos : Z; s_k : Z; s_phase : R; s_ophase : R; s_seen : Seen }.

(** one iteration of while (k < 20000), testresampler.cc:472-575 *)
Definition scan_step (rt : resample_type) (addr : blk -> Z) (block_size : Z) (ups downs : resampler) (freq : R) (s : scan) : M scan :=
  let misalign := rnd (s_pos s) mod 4 in
  if block_size <=? misalign then ret (Scan (s_pos s + 1) (s_k s) (s_phase s) (s_ophase s) (s_seen s))
  else
    let bs := rnd (s_pos s + 1) mod (block_size + 1 - misalign) in
    if bs <? 2 then ret (Scan (s_pos s + 2) (s_k s) (s_phase s) (s_ophase s) (s_seen s))
    else
      let bs := match rt with RES_DOWNSAMPLE | RES_SUBSAMPLE => bs - Z.land bs 1 | _ => bs end in
      phase <- fill_input freq misalign bs (s_phase s) ;;
      resample_block rt addr (s_pos s) ups downs misalign bs ;;;
      e <- expect rt freq ups downs bs ;;
      order <- lift (order ups) ;;
      t <- check_output freq e (u32 (order * 4)) (s_k s, s_ophase s, s_seen s) ;;
      let '(k, ophase, seen) := t in
      ret (Scan (s_pos s + 2) k phase ophase seen).

(** the loop over the frequencies, testresampler.cc:466-579; state: test_frequency, rand() calls, what was collected *)
Definition scan_all (rt : resample_type) (addr : blk -> Z) (block_size : Z) (ups downs : resampler) (freq_max freq_inc : R)
    (s : R * Z * Seen) : M (R * Z * Seen) :=
  while fuel (fun s => let '(freq, _, _) := s in if Rlt_dec freq (freq_max + 1) then true else false)
    (fun s =>
       let '(freq, pos, seen) := s in
       t <- while fuel (fun t => s_k t <? 20000) (scan_step rt addr block_size ups downs freq) (Scan pos 0 0 0 seen) ;;
       ret (freq + freq_inc, s_pos t, s_seen t)%R)
    s.

(** perform_test<TEST, RESAMPLE>, testresampler.cc:375-578, for the tests with sines.  [idu], [idd]: identities of the two
    objects.  The result: calls of rand() so far, and what was collected *)
Definition perform_scan (rt : resample_type) (addr : blk -> Z) (idu idd block_size precision : Z) (use_sse : bool)
    (frequency freq_min freq_max freq_inc : R) (start : Seen) (pos : Z) : M (Z * Seen) :=
  u <- construct plat idu UP 2 precision use_sse FILTER_FIR ;;
  d <- construct plat idd DOWN 2 precision use_sse FILTER_FIR ;;
  let ups := fst u in let downs := fst d in
  b <- lift (sse_enabled ups) ;; require (Bool.eqb use_sse b) ;;;
  b <- lift (sse_enabled downs) ;; require (Bool.eqb use_sse b) ;;;
  alloc in_a (u32 (block_size * 2)) (fun _ => f0) ;;;
  alloc out_a (u32 (block_size * 2)) (fun _ => f0) ;;;
  alloc out2_a (u32 (block_size * 2)) (fun _ => f0) ;;;
  let scanning := if Rlt_dec 1 freq_inc then true else false in
  let fmin := if scanning then freq_min else frequency in
  let fmax := if scanning then freq_max else (1.5 * frequency)%R in
  let finc := if scanning then freq_inc else frequency in
  t <- scan_all rt addr block_size ups downs fmax finc (fmin, pos, start) ;;
  let '(_, pos, seen) := t in
  free out2_a ;;; free out_a ;;; free in_a ;;;
  ret (pos, seen).
End Scan.

(** TEST_ACCURACY keeps the largest difference, testresampler.cc:567-568 *)
Definition larger (k : Z) (c : A) (correct_output : R) (max_diff : xdouble) : xdouble :=
  xmax max_diff (xsub (to_double c) correct_output).

(** perform_test<TEST_ACCURACY, RESAMPLE>, testresampler.cc:375-591.
    The result: calls of rand() so far, and the result (0: passed) *)
Definition perform_accuracy (rt : resample_type) (addr : blk -> Z) (idu idd block_size precision : Z) (use_sse : bool)
    (frequency freq_min freq_max freq_inc max_threshold_db : R) (pos : Z) : M (Z * Z) :=
  t <- perform_scan larger rt addr idu idd block_size precision use_sse frequency freq_min freq_max freq_inc (Fin 0) pos ;;
  ret (fst t, if db_above (snd t) max_threshold_db then 1 else 0).

(** the arguments of run_accuracy *)
Record arguments := Arguments_ {
  g_type : resample_type; g_sse : bool; g_bits : Z; g_min : R; g_max : R; g_inc : R; g_threshold : R }.

(** run_accuracy, testresampler.cc:809-829; block_size and frequency have their default values.
    Objects are not deallocated here: every run gets two new identities *)
Definition run_accuracy (addr : blk -> Z) (idu idd : Z) (a : arguments) (pos : Z) : M (Z * bool) :=
  let threshold := if Rlt_dec 0 (g_threshold a) then (- g_threshold a)%R else g_threshold a in
  r <- perform_accuracy (g_type a) addr idu idd 128 (find_precision_for_bits (g_bits a)) (sse_available plat && g_sse a)
    440 (g_min a) (g_max a) (g_inc a) threshold pos ;;
  ret (fst r, snd r =? 0).

(** TASSERT (run_accuracy (...)) for every entry of the list: a failure ends the program with status 1 *)
Fixpoint run_list (addr : Z -> blk -> Z) (id : Z) (l : list arguments) (pos : Z) : M bool :=
  match l with
  | [] => ret true
  | a :: l =>
      r <- run_accuracy (addr id) id (id + 1) a pos ;;
      if snd r then run_list addr (id + 2) l (fst r) else ret false
  end.

(** check_accuracy_full, testresampler.cc:845-885 *)
Definition up_tests (sse : bool) (t24 : R) : list arguments :=
  [ Arguments_ RES_UPSAMPLE sse 8  50 18000 50 44;
    Arguments_ RES_UPSAMPLE sse 12 50 18000 50 66.5;
    Arguments_ RES_UPSAMPLE sse 16 50 18000 50 89;
    Arguments_ RES_UPSAMPLE sse 20 50 18000 50 113.5;
    Arguments_ RES_UPSAMPLE sse 24 50 18000 50 t24 ].
Definition down_tests (sse : bool) : list arguments :=
  [ Arguments_ RES_DOWNSAMPLE sse 8  25 9000 25 50;
    Arguments_ RES_DOWNSAMPLE sse 12 25 9000 25 72;
    Arguments_ RES_DOWNSAMPLE sse 16 25 9000 25 95;
    Arguments_ RES_DOWNSAMPLE sse 20 25 9000 25 119.5;
    Arguments_ RES_DOWNSAMPLE sse 24 25 9000 25 130 ].
Definition all_tests : list arguments :=
  (if sse_available plat then up_tests true 124.5 ++ down_tests true else []) ++
  up_tests false 124 ++ down_tests false ++
  (if sse_available plat then
    [ Arguments_ RES_OVERSAMPLE true 8  50 18000 50 44;
      Arguments_ RES_OVERSAMPLE true 16 50 18000 50 89;
      Arguments_ RES_SUBSAMPLE true 16 25 9000 25 85.5 ] else []) ++
  [ Arguments_ RES_OVERSAMPLE false 16 50 18000 50 89;
    Arguments_ RES_SUBSAMPLE false 16 25 9000 25 85.5 ].
Definition check_accuracy_full (addr : Z -> blk -> Z) : M bool := run_list addr 0 all_tests 0.
End Accuracy.
