(** * The error table and error spectrum tests: tests/testresampler.cc, perform_test<TEST_ERROR_TABLE, RESAMPLE>
    and perform_test<TEST_ERROR_SPECTRUM, RESAMPLE>

    As for the accuracy test, values of type double are real numbers, or infinite or NaN.  What fftw computes is a
    parameter.  Of the printed text, the numbers are modelled (before they are written with some digits). *)
From Coq Require Import ZArith Reals List Lia Bool.
From Verif Require Import Arith ArithR Mem FirModel IirModel Tables ResamplerModel AccuracyModel.
Import ListNotations.
Open Scope Z_scope.
Open Scope m_scope.

(** a - b *)
Definition xrsub (a : R) (b : xdouble) : xdouble := match b with Fin r => Fin (a - r) | PInf => MInf | MInf => PInf | NaN => NaN end.
(** a * w *)
Definition xscale (a : xdouble) (w : R) : xdouble :=
  match a with
  | Fin r => Fin (r * w)
  | NaN => NaN
  | PInf => if Rlt_dec 0 w then PInf else if Rlt_dec w 0 then MInf else NaN
  | MInf => if Rlt_dec 0 w then MInf else if Rlt_dec w 0 then PInf else NaN
  end.
(** sqrt (re * re + im * im) / normalize for a positive divisor *)
Definition xlength (re im : xdouble) (normalize : R) : xdouble :=
  match re, im with
  | NaN, _ | _, NaN => NaN
  | Fin re, Fin im => Fin (sqrt (re * re + im * im) / normalize)
  | _, _ => PInf
  end.
(** 20 * log (d) / log (10) *)
Definition xdb (d : xdouble) : xdouble :=
  match d with
  | Fin r => if Rlt_dec 0 r then Fin (20 * ln r / ln 10) else if Rlt_dec r 0 then NaN else MInf
  | PInf => PInf
  | MInf | NaN => NaN
  end.

(** window_blackman, testresampler.cc:63-69, testsawquality.cc:15-21 *)
Definition window_blackman (x : R) : R :=
  if Rlt_dec 1 (Rabs x) then 0%R else (0.42 + 0.5 * cos (PI * x) + 0.08 * cos (2 * PI * x))%R.

(** the numbers of one line of the error table: k, check[i], correct_output, correct_output - check[i] *)
Record row := Row { row_k : Z; row_value : xdouble; row_correct : R; row_error : xdouble }.

Section Errors.
Context {A : arith} (plat : platform).
Context (to_float : R -> A) (to_double : A -> xdouble).
Context (rnd : Z -> Z) (garbage : Z -> Z -> Z -> Z -> Z -> A) (ndebug : bool) (fuel : nat).
(** the complex numbers that fft writes: number i *)
Context (fft : list xdouble -> Z -> xdouble * xdouble).
Notation M := (M A).

(** testresampler.cc:557-560 *)
Definition add_row (k : Z) (c : A) (correct_output : R) (rows : list row) : list row :=
  rows ++ [Row k (to_double c) correct_output (xrsub correct_output (to_double c))].

(** perform_test<TEST_ERROR_TABLE, RESAMPLE>: calls of rand() so far, and the table *)
Definition perform_error_table (rt : resample_type) (addr : blk -> Z) (idu idd block_size precision : Z) (use_sse : bool)
    (frequency freq_min freq_max freq_inc : R) (pos : Z) : M (Z * list row) :=
  perform_scan plat to_float rnd garbage ndebug fuel add_row rt addr idu idd block_size precision use_sse frequency freq_min freq_max freq_inc [] pos.

(** testresampler.cc:561-564 *)
Definition add_error (k : Z) (c : A) (correct_output : R) (errors : list xdouble) : list xdouble :=
  errors ++ [xrsub correct_output (to_double c)].

(** testresampler.cc:592-636; None: the message "too few values for computing error spectrum, increase block size" *)
Definition FFT_SIZE : Z := 16384.
Definition spectrum_window (i : Z) : R := window_blackman ((2 * IZR i - IZR FFT_SIZE) / IZR FFT_SIZE).
(** the loop in lines 604-610: normalize, and the values multiplied by the window *)
Fixpoint windowed (n : nat) (i : Z) (errors : list xdouble) (normalize : R) : list xdouble * R :=
  match n, errors with
  | O, _ | _, [] => (errors, normalize)
  | S n, e :: errors =>
      let w := spectrum_window i in
      let t := windowed n (i + 1) errors (normalize + w)%R in
      (xscale e w :: fst t, snd t)
  end.
Definition freq_scale (rt : resample_type) : R := match rt with RES_UPSAMPLE => 2 | RES_DOWNSAMPLE => 0.5 | _ => 1 end.
(** a line: frequency and error in dB *)
Definition spectrum (rt : resample_type) (errors : list xdouble) : option (list (R * xdouble)) :=
  if Z.of_nat (length errors) <? FFT_SIZE then None
  else
    let '(errors, normalize) := windowed (Z.to_nat FFT_SIZE) 0 errors 0 in
    let normalize := (normalize / IZR FFT_SIZE)%R in
    let fft_error := fft (firstn (Z.to_nat FFT_SIZE) errors) in
    let normalize := (normalize * IZR (FFT_SIZE / 2))%R in
    Some (map (fun j => let i := Z.of_nat j in
                        let '(re, im) := fft_error i in
                        (IZR i / IZR FFT_SIZE * 44100 * freq_scale rt, xdb (xlength re im normalize))%R)
              (seq 0 (Z.to_nat (FFT_SIZE / 2)))).

(** perform_test<TEST_ERROR_SPECTRUM, RESAMPLE>: calls of rand() so far, and the lines *)
Definition perform_error_spectrum (rt : resample_type) (addr : blk -> Z) (idu idd block_size precision : Z) (use_sse : bool)
    (frequency freq_min freq_max freq_inc : R) (pos : Z) : M (Z * option (list (R * xdouble))) :=
  t <- perform_scan plat to_float rnd garbage ndebug fuel add_error rt addr idu idd block_size precision use_sse frequency freq_min freq_max freq_inc [] pos ;;
  ret (fst t, spectrum rt (snd t)).
End Errors.
