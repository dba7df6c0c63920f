(** * tests/testsawquality.cc

    The resamplers work with any arithmetic A.  Values of type double are real numbers, or infinite or NaN.  What fftw
    and zita-resampler compute are parameters, so are tanh and sin on floating point numbers.  Of the printed text, the
    numbers are modelled (before they are written with some digits). *)
From Coq Require Import String ZArith Reals List Lia Bool.
From Verif Require Import Arith Mem FirModel IirModel Tables ResamplerModel AccuracyModel ExampleModel ToolsModel ErrorModel.
Import ListNotations.
Open Scope list_scope.
Open Scope Z_scope.
Open Scope m_scope.

(** a + b *)
Definition xadd (a b : xdouble) : xdouble :=
  match a, b with
  | NaN, _ | _, NaN | PInf, MInf | MInf, PInf => NaN
  | PInf, _ | _, PInf => PInf
  | MInf, _ | _, MInf => MInf
  | Fin x, Fin y => Fin (x + y)
  end.
(** sqrt (a) / normalize for a positive divisor *)
Definition xsqrt_div (a : xdouble) (normalize : R) : xdouble :=
  match a with
  | Fin r => if Rlt_dec r 0 then NaN else Fin (sqrt r / normalize)
  | PInf => PInf
  | MInf | NaN => NaN
  end.
(** db, testsawquality.cc:35-39 *)
Definition saw_db (x : xdouble) : xdouble := xdb (xmax x (Fin (1 / 100000000))).

(** testsawquality.cc:116, and the largest int *)
Definition SAW_SIZE : Z := 8192.
Definition INT_MAX : Z := 2 ^ 31 - 1.
(** testsawquality.cc:68-69 *)
Definition SAW_OVERSAMPLE : Z := 8.
Definition SAW_PREC : Z := PREC_96DB.

(** what a run does: the message and exit code 1; undefined behaviour because an int overflows; or the lines and exit code 0 *)
Inductive saw_outcome := Usage | Overflow | Lines (l : list (xdouble * xdouble)).

Section Saw.
Context {A : arith} (plat : platform).
Context (addr : blk -> Z) (gu gd : Z -> Z -> Z -> A) (gt : Z -> A) (ndebug : bool).
(** conversions between float and double *)
Context (to_double : A -> xdouble) (to_float : xdouble -> A).
(** std::tanh (v * DRIVE) *)
Context (shape : A -> A).
(** sin (freq * p * i / 48000 * 2 * M_PI) / p *)
Context (partial : A -> Z -> Z -> xdouble).
(** out[i] after zprocess *)
Context (zita : list A -> Z -> A).
(** the complex numbers that fft writes: number i *)
Context (fft : list A -> Z -> A * A).
Notation M := (M A).

(** the condition in line 123 *)
Definition below_half (freq : A) (p : Z) : bool := xlt (to_double (fmul (to_float (Fin (IZR p))) freq)) (Fin 24000).
(** the loop over p in lines 123-124, for in[i] = v, from p on; [n] = INT_MAX - p.  None: p++ overflows *)
Fixpoint partials (n : nat) (freq : A) (i p : Z) (v : A) : option A :=
  if below_half freq p then
    match n with
    | O => None
    | S n => partials n freq i (p + 1) (to_float (xadd (to_double v) (partial freq p i)))
    end
  else Some v.
(** lines 122-124; false: overflow *)
Definition saw_input (freq : A) : M bool :=
  for_up (Z.to_nat SAW_SIZE) 0 (fun i ok =>
    if ok : bool then
      x <- load (Ptr in_a i) ;;
      match partials (Z.to_nat (INT_MAX - 1)) freq i 1 x with
      | Some v => store (Ptr in_a i) v ;;; ret true
      | None => ret false
      end
    else ret false) true.

(** lines 132-139: the result is normalize *)
Definition saw_window (i : Z) : R := window_blackman ((2 * IZR i - IZR SAW_SIZE) / IZR SAW_SIZE).
Definition saw_windowing : M R :=
  n <- for_up (Z.to_nat SAW_SIZE) 0 (fun i normalize =>
    x <- load (Ptr out_a i) ;;
    store (Ptr out_a i) (to_float (xscale (to_double x) (saw_window i))) ;;;
    ret (normalize + saw_window i)%R) 0%R ;;
  ret (n / 2)%R.

(** lines 145-147, for i / 2 = [i] *)
Definition saw_line (normalize : R) (ri : A * A) (i : Z) : xdouble * xdouble :=
  let freq := to_float (Fin (IZR i / IZR SAW_SIZE * 48000)) in
  let amp := to_float (xsqrt_div (to_double (fadd (fmul (fst ri) (fst ri)) (fmul (snd ri) (snd ri)))) normalize) in
  (to_double freq, saw_db (to_double amp)).
(** lines 141-148; fft_out.size() / 2 lines *)
Definition saw_lines (normalize : R) (out : list A) : list (xdouble * xdouble) :=
  map (fun j => saw_line normalize (fft out (Z.of_nat j)) (Z.of_nat j)) (seq 0 (Z.to_nat ((SAW_SIZE + 2) / 2))).

(** main, testsawquality.cc:105-149; [args]: the arguments without the name of the program, [atof]: the number that an
    argument stands for, as a float *)
Definition saw_main (atof : string -> A) (args : list string) : M saw_outcome :=
  let mode := match args with [_; mode] => mode | _ => ""%string end in
  if negb (String.eqb mode "zita") && negb (String.eqb mode "panda") then ret Usage
  else
    alloc in_a SAW_SIZE (fun _ => f0) ;;;
    alloc out_a SAW_SIZE (fun _ => f0) ;;;
    let freq := atof (nth 0 args ""%string) in
    ok <- saw_input freq ;;
    if negb ok then ret Overflow
    else
      s <- sat_new plat SAW_OVERSAMPLE SAW_PREC 0 1 ;;
      (if String.eqb mode "zita" then
         x <- contents in_a SAW_SIZE ;; fill out_a SAW_SIZE (zita x)
       else
         sat_process SAW_OVERSAMPLE shape addr ndebug gu gd gt 2 (fst s) (Ptr in_a 0) SAW_SIZE (Ptr out_a 0)) ;;;
      normalize <- saw_windowing ;;
      out <- contents out_a SAW_SIZE ;;
      free out_a ;;; free in_a ;;;
      ret (Lines (saw_lines normalize out)).
End Saw.
