(** * The self test: test_filter_impl, pandaresampler.cc:284-341 and 1393-1407 *)
From Coq Require Import ZArith Reals List Lia Bool.
From Flocq Require Import Core BinarySingleNaN.
From Verif Require Import Arith ArithR ArithF Mem FirModel ResamplerModel.
Import ListNotations.
Open Scope Z_scope.
Open Scope m_scope.

(** The test also uses double arithmetic: the operations it needs, besides those on floats *)
Record dops (A : arith) := {
  dbl :> Type;
  d0 : dbl;                          (* 0.0 *)
  dof : A -> dbl;                    (* float to double *)
  dadd : dbl -> dbl -> dbl;
  dsub : dbl -> dbl -> dbl;
  dabs : dbl -> dbl;                 (* fabs *)
  ddivi : dbl -> Z -> dbl;           (* division by an unsigned int *)
  dgt : dbl -> bool;                 (* x > 0.00001 *)
  fofi : Z -> A;                     (* unsigned int to float *)
  frand : Z -> A                     (* 1.0 - r / (0.5 * RAND_MAX), converted to float *)
}.
Arguments d0 {A}. Arguments dof {A}. Arguments dadd {A}. Arguments dsub {A}. Arguments dabs {A}.
Arguments ddivi {A}. Arguments dgt {A}. Arguments fofi {A}. Arguments frand {A}.

Section Test.
Context {A : arith} (D : dops A).
Notation M := (M A).

(** fir_process_one_sample<double>, pandaresampler.cc:181-191: the product of two floats is a float *)
Definition fir_process_one_sample_d (input taps : ptr) (order : Z) : M D :=
  for_up (Z.to_nat order) 0
    (fun i out =>
       x <- load (padd input i) ;; t <- load (padd taps i) ;;
       ret (dadd D out (dof D (fmul x t))))
    (d0 D).

(** Names of the arrays of the test: taps, sse_taps, random_mem, out.  Block names
    are only names; the number -1 is not used by any resampler object. *)
Definition t_taps : blk := Taps (-1).
Definition t_sse : blk := SseTaps (-1).
Definition t_mem : blk := Hist (-1).
Definition t_out : blk := HistE (-1).

(** One iteration of the loop, pandaresampler.cc:295-335, without the output.
    rand k is the k-th result of rand(); addr gives the addresses of the arrays
    in this iteration; junk is what is in the uninitialised array out.
    The state of the loop: number of calls of rand so far, errors. *)
Definition test_order (addr : blk -> Z) (rand : Z -> Z) (junk : Z -> A) (order : Z) (s : Z * Z) : M (Z * Z) :=
  let '(k, errors) := s in
  alloc t_taps order (fun _ => f0) ;;;
  for_up (Z.to_nat order) 0 (fun i _ => store (Ptr t_taps i) (fofi D (i + 1))) tt ;;;
  fir_compute_sse_taps (-1) order ;;;
  alloc t_mem (order + 6) (fun _ => f0) ;;;
  for_up (Z.to_nat (order + 6)) 0 (fun i _ => store (Ptr t_mem i) (frand D (rand (k + i)))) tt ;;;
  alloc t_out 4 junk ;;;
  fir_process_4samples_sse addr (Ptr t_mem 0) (Ptr t_sse 0) order (Ptr t_out 0) (Ptr t_out 1) (Ptr t_out 2) (Ptr t_out 3) ;;;
  avg_diff <- for_up 4 0
    (fun i avg =>
       s <- fir_process_one_sample_d (Ptr t_mem i) (Ptr t_taps 0) order ;;
       o <- load (Ptr t_out i) ;;
       ret (dadd D avg (dabs D (dsub D s (dof D o)))))
    (d0 D) ;;
  let is_error := dgt D (ddivi D avg_diff (order + 1)) in
  free t_out ;;; free t_mem ;;; free t_sse ;;; free t_taps ;;;
  ret (k + (order + 6), if is_error then errors + 1 else errors).

(** fir_test_filter_sse; the arrays may be at other addresses in every iteration *)
Definition fir_test_filter_sse (addr : Z -> blk -> Z) (rand : Z -> Z) (junk : Z -> A) (max_order : Z) : M bool :=
  s <- for_up (Z.to_nat max_order) 0 (fun order s => test_order (addr order) rand junk order s) (0, 0) ;;
  ret (snd s =? 0).

(** test_filter_impl; verbose only prints *)
Definition test_filter_impl (plat : platform) (addr : Z -> blk -> Z) (rand : Z -> Z) (junk : Z -> A) : M bool :=
  if sse_available plat then fir_test_filter_sse addr rand junk 64 else ret true.
End Test.

(** ** Instances *)

(** exact arithmetic *)
Definition RD (rand_max : Z) : dops RA := {|
  dbl := R;
  d0 := 0%R;
  dof := fun x : RA => (x : R);
  dadd := Rplus;
  dsub := Rminus;
  dabs := Rabs;
  ddivi := fun x n => (x / IZR n)%R;
  dgt := fun x => if Rlt_dec (1 / 100000) x then true else false;
  fofi := fun n => (IZR n : RA);
  frand := fun r => ((1 - IZR r / (1 / 2 * IZR rand_max))%R : RA) |}.

(** IEEE *)
Definition b64_of (x : b32) : b64 :=
  match x with
  | B754_zero s => B754_zero s
  | B754_infinity s => B754_infinity s
  | B754_nan => B754_nan
  | B754_finite s m e _ => binary_normalize 53 1024 Hprec64 Hmax64 mode_NE (cond_Zopp s (Zpos m)) e s
  end.
Definition b32_of (x : b64) : b32 :=
  match x with
  | B754_zero s => B754_zero s
  | B754_infinity s => B754_infinity s
  | B754_nan => B754_nan
  | B754_finite s m e _ => binary_normalize 24 128 Hprec32 Hmax32 mode_NE (cond_Zopp s (Zpos m)) e s
  end.
Definition dec_b64 (x : dec) : b64 := let '(m, e) := dec_to_double x in b64_dy m e.

(** RAND_MAX of the GNU C library; 0.5 * RAND_MAX is exact *)
Definition RAND_MAX : Z := 2147483647.
Definition F64 : dops F32 := {|
  dbl := b64;
  d0 := B754_zero false;
  dof := fun x : F32 => b64_of x;
  dadd := b64_plus;
  dsub := b64_minus;
  dabs := Babs;
  ddivi := fun x n => b64_div x (b64_dy n 0);
  dgt := fun x => match Bcompare x (dec_b64 (Dec 1 (-5))) with Some Gt => true | _ => false end;
  fofi := fun n => (b32_dy n 0 : F32);
  frand := fun r => (b32_of (b64_minus (b64_dy 1 0) (b64_div (b64_dy r 0) (b64_dy RAND_MAX (-1)))) : F32) |}.
