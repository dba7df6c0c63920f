(** * FIR resampler: transcription of pandaresampler.cc:164-685 *)
From Coq Require Import ZArith List Lia Bool.
From Verif Require Import Arith Mem.
Open Scope Z_scope.
Open Scope m_scope.

Section Fir.
Context {A : arith} (addr : blk -> Z).
Notation M := (M A).

(** fir_process_one_sample<float>, pandaresampler.cc:181-191 *)
Definition fir_process_one_sample (input taps : ptr) (order : Z) : M A :=
  for_up (Z.to_nat order) 0
    (fun i out =>
       x <- load (padd input i) ;; t <- load (padd taps i) ;;
       ret (fadd out (fmul x t)))
    f0.

Definition hsum (v : v4 A) : A := fadd (fadd (fadd (l0 v) (l1 v)) (l2 v)) (l3 v).

(** fir_process_4samples_sse, pandaresampler.cc:203-239 (SSE/NEON branch).
    Pointers input and sse_taps are F4Vector pointers, so input_v[i] is the
    aligned 4-float access at float offset 4*i. *)
Definition fir_process_4samples_sse (input sse_taps : ptr) (order : Z)
    (out0 out1 out2 out3 : ptr) : M unit :=
  let input_v i := load4 addr (padd input (4 * i)) in
  let sse_taps_v i := load4 addr (padd sse_taps (4 * i)) in
  let mul0 j := x <- input_v 0 ;; t <- sse_taps_v j ;; ret (vmap2 fmul x t) in
  a0 <- mul0 0 ;; a1 <- mul0 1 ;; a2 <- mul0 2 ;; a3 <- mul0 3 ;;
  let macc i j (acc : v4 A) :=
    x <- input_v i ;; t <- sse_taps_v (i * 4 + j) ;; ret (vmap2 fadd acc (vmap2 fmul x t)) in
  r <- for_up (Z.to_nat ((order + 6) / 4 - 1)) 1
    (fun i acc =>
       let '(c0, c1, c2, c3) := acc in
       d0 <- macc i 0 c0 ;; d1 <- macc i 1 c1 ;; d2 <- macc i 2 c2 ;; d3 <- macc i 3 c3 ;;
       ret (d0, d1, d2, d3))
    (a0, a1, a2, a3) ;;
  let '(r0, r1, r2, r3) := r in
  store out0 (hsum r0) ;;; store out1 (hsum r1) ;;; store out2 (hsum r2) ;;; store out3 (hsum r3).

(** fir_compute_sse_taps, pandaresampler.cc:260-274, together with the copy
    of its result into the AlignedArray sse_taps (pandaresampler.hh:73-77).
    Simplification: the temporary vector is not modelled, the elements are
    written to the destination array directly. *)
Definition fir_compute_sse_taps (tag order : Z) : M unit :=
  alloc (SseTaps tag) ((order + 6) / 4 * 16) (fun _ => f0) ;;;
  for_up 4 0
    (fun j _ =>
       for_up (Z.to_nat order) 0
         (fun i _ =>
            let k := i + j in
            t <- load (Ptr (Taps tag) i) ;;
            store (Ptr (SseTaps tag) (k / 4 * 16 + k mod 4 + j * 4)) t)
         tt)
    tt.

(** copy (first, first + n, dst): element-wise forward copy (std::copy) *)
Definition copy_fwd (src : ptr) (n : Z) (dst : ptr) : M unit :=
  for_up (Z.to_nat n) 0 (fun i _ => x <- load (padd src i) ;; store (padd dst i) x) tt.

(** memmove (dst, src, n floats): as if through a temporary buffer *)
Fixpoint load_list (p : ptr) (n : nat) : M (list A) :=
  match n with
  | O => ret nil
  | S k => x <- load p ;; r <- load_list (padd p 1) k ;; ret (x :: r)
  end.
Fixpoint store_list (p : ptr) (l : list A) : M unit :=
  match l with
  | nil => ret tt
  | cons x r => store p x ;;; store_list (padd p 1) r
  end.
Definition memmove_f (dst src : ptr) (n : Z) : M unit :=
  l <- load_list src (Z.to_nat n) ;; store_list dst l.

(** ** Upsampler2<ORDER, USE_SSE>, pandaresampler.cc:354-489 *)
Record fir := Fir { f_order : Z; f_sse : bool; f_tag : Z }.

(** the tap arrays and an all-zero initial history.
    Constructor Upsampler2, pandaresampler.cc:432-438; [init_taps] is the array
    passed by create_impl_with_coeffs. The evenness check only prints. *)
Definition up_construct (o : fir) (init_taps : Z -> A) : M unit :=
  alloc (Taps (f_tag o)) (f_order o) init_taps ;;;
  alloc (Hist (f_tag o)) (2 * f_order o) (fun _ => f0) ;;;
  fir_compute_sse_taps (f_tag o) (f_order o).

(** Upsampler2::process_4samples_aligned, pandaresampler.cc:361-374 *)
Definition up_process_4samples_aligned (o : fir) (input output : ptr) : M unit :=
  let H := f_order o / 2 in
  let mv i k := x <- load (padd input (H + k)) ;; store (padd output i) x in
  mv 1 0 ;;; mv 3 1 ;;; mv 5 2 ;;; mv 7 3 ;;;
  fir_process_4samples_sse input (Ptr (SseTaps (f_tag o)) 0) (f_order o)
    (padd output 0) (padd output 2) (padd output 4) (padd output 6).

(** Upsampler2::process_sample_unaligned, pandaresampler.cc:376-384 *)
Definition up_process_sample_unaligned (o : fir) (input output : ptr) : M unit :=
  let H := f_order o / 2 in
  s <- fir_process_one_sample input (Ptr (Taps (f_tag o)) 0) (f_order o) ;;
  store output s ;;;
  x <- load (padd input H) ;;
  store (padd output 1) x.

(** Upsampler2::process_block_aligned, pandaresampler.cc:385-408; the indices
    i + 6, i*2 and 2*i are unsigned int expressions *)
Definition up_process_block_aligned (o : fir) (input : ptr) (n : Z) (output : ptr) : M unit :=
  i <- (if f_sse o then
          while (Z.to_nat n) (fun i => u32 (i + 6) <? n)
            (fun i => up_process_4samples_aligned o (padd input i) (padd output (u32 (i * 2))) ;;;
                      ret (u32 (i + 4))) 0
        else ret 0) ;;
  while (Z.to_nat n) (fun i => i <? n)
    (fun i => up_process_sample_unaligned o (padd input i) (padd output (u32 (2 * i))) ;;;
              ret (u32 (i + 1))) i ;;;
  ret tt.

(** Upsampler2::process_block_unaligned, pandaresampler.cc:409-425 *)
Definition up_process_block_unaligned (o : fir) (input : ptr) (n : Z) (output : ptr) : M unit :=
  i <- (if f_sse o then
          while (Z.to_nat n) (fun i => negb (aligned16 addr (padd input i)) && (i <? n))
            (fun i => up_process_sample_unaligned o (padd input i) (padd output (u32 (2 * i))) ;;;
                      ret (u32 (i + 1))) 0
        else ret 0) ;;
  up_process_block_aligned o (padd input i) (n - i) (padd output (u32 (2 * i))).

(** Upsampler2::process_block, pandaresampler.cc:443-465 *)
Definition up_process_block (o : fir) (input : ptr) (n_input_samples : Z) (output : ptr) : M unit :=
  let ORDER := f_order o in
  let history i := Ptr (Hist (f_tag o)) i in
  let history_todo := Z.min n_input_samples (ORDER - 1) in
  copy_fwd input history_todo (history (ORDER - 1)) ;;;
  up_process_block_aligned o (history 0) history_todo output ;;;
  if history_todo <? n_input_samples then
    up_process_block_unaligned o input (n_input_samples - history_todo)
      (padd output (u32 (2 * history_todo))) ;;;
    copy_fwd (padd input (n_input_samples - history_todo)) history_todo (history 0)
  else
    memmove_f (history 0) (history n_input_samples) (ORDER - 1).

(** Upsampler2::reset, pandaresampler.cc:479-483 *)
Definition fill (p : ptr) (n : Z) (v : A) : M unit :=
  for_up (Z.to_nat n) 0 (fun i _ => store (padd p i) v) tt.
Definition up_reset (o : fir) : M unit :=
  fill (Ptr (Hist (f_tag o)) 0) (2 * f_order o) f0.

(** ** Downsampler2<ORDER, USE_SSE>, pandaresampler.cc:498-685 *)

(** Constructor Downsampler2, pandaresampler.cc:587-594 *)
Definition down_construct (o : fir) (init_taps : Z -> A) : M unit :=
  alloc (Taps (f_tag o)) (f_order o) init_taps ;;;
  alloc (HistE (f_tag o)) (2 * f_order o) (fun _ => f0) ;;;
  alloc (HistO (f_tag o)) (2 * f_order o) (fun _ => f0) ;;;
  fir_compute_sse_taps (f_tag o) (f_order o).

(** Downsampler2::process_4samples_aligned<ODD_STEPPING>, pandaresampler.cc:505-519 *)
Definition down_process_4samples_aligned (o : fir) (st : Z) (input_even input_odd output : ptr) : M unit :=
  let H := f_order o / 2 - 1 in
  fir_process_4samples_sse input_even (Ptr (SseTaps (f_tag o)) 0) (f_order o)
    (padd output 0) (padd output 1) (padd output 2) (padd output 3) ;;;
  let acc k :=
    y <- load (padd output k) ;; x <- load (padd input_odd ((H + k) * st)) ;;
    store (padd output k) (fadd y (fmul fhalf x)) in
  acc 0 ;;; acc 1 ;;; acc 2 ;;; acc 3.

(** Downsampler2::process_sample_unaligned<ODD_STEPPING>, pandaresampler.cc:521-529 *)
Definition down_process_sample_unaligned (o : fir) (st : Z) (input_even input_odd : ptr) : M A :=
  let H := f_order o / 2 - 1 in
  s <- fir_process_one_sample input_even (Ptr (Taps (f_tag o)) 0) (f_order o) ;;
  x <- load (padd input_odd (H * st)) ;;
  ret (fadd s (fmul fhalf x)).

(** Downsampler2::process_block_aligned<ODD_STEPPING>, pandaresampler.cc:530-554 *)
Definition down_process_block_aligned (o : fir) (st : Z) (input_even input_odd output : ptr)
    (n_output_samples : Z) : M unit :=
  i <- (if f_sse o then
          while (Z.to_nat n_output_samples) (fun i => u32 (i + 6) <? n_output_samples)
            (fun i => down_process_4samples_aligned o st (padd input_even i)
                        (padd input_odd (u32 (i * st))) (padd output i) ;;;
                      ret (u32 (i + 4))) 0
        else ret 0) ;;
  while (Z.to_nat n_output_samples) (fun i => i <? n_output_samples)
    (fun i => v <- down_process_sample_unaligned o st (padd input_even i)
                     (padd input_odd (u32 (i * st))) ;;
              store (padd output i) v ;;;
              ret (u32 (i + 1))) i ;;;
  ret tt.

(** Downsampler2::process_block_unaligned<ODD_STEPPING>, pandaresampler.cc:555-572.
    Note: the code passes n_output_samples, not n_output_samples - i, to
    process_block_aligned (line 571); transcribed as it stands. *)
Definition down_process_block_unaligned (o : fir) (st : Z) (input_even input_odd output : ptr)
    (n_output_samples : Z) : M unit :=
  i <- (if f_sse o then
          while (Z.to_nat n_output_samples)
            (fun i => negb (aligned16 addr (padd input_even i)) && (i <? n_output_samples))
            (fun i => v <- down_process_sample_unaligned o st (padd input_even i)
                             (padd input_odd (u32 (i * st))) ;;
                      store (padd output i) v ;;;
                      ret (u32 (i + 1))) 0
        else ret 0) ;;
  down_process_block_aligned o st (padd input_even i) (padd input_odd (u32 (i * st)))
    (padd output i) n_output_samples.

(** Downsampler2::deinterleave2, pandaresampler.cc:573-580:
    for (i = 0; i < n_data_values; i += 2) output[i / 2] = data[i] *)
Definition deinterleave2 (data : ptr) (n_data_values : Z) (output : ptr) : M unit :=
  for_up (Z.to_nat ((n_data_values + 1) / 2)) 0
    (fun k _ => x <- load (padd data (2 * k)) ;; store (padd output k) x) tt.

(** one iteration of the loop of Downsampler2::process_block, pandaresampler.cc:614-658 *)
Definition down_process_chunk (o : fir) (input : ptr) (n_input_todo : Z) (output : ptr) : M unit :=
  let ORDER := f_order o in
  let input_even := Ptr DBlock 0 in
  let history_even i := Ptr (HistE (f_tag o)) i in
  let history_odd i := Ptr (HistO (f_tag o)) i in
  deinterleave2 input n_input_todo input_even ;;;
  let input_odd := padd input 1 in
  let n_output_todo := n_input_todo / 2 in
  let history_todo := Z.min n_output_todo (ORDER - 1) in
  copy_fwd input_even history_todo (history_even (ORDER - 1)) ;;;
  deinterleave2 input_odd (history_todo * 2) (history_odd (ORDER - 1)) ;;;
  down_process_block_aligned o 1 (history_even 0) (history_odd 0) output history_todo ;;;
  if history_todo <? n_output_todo then
    down_process_block_unaligned o 2 input_even input_odd (padd output history_todo)
      (n_output_todo - history_todo) ;;;
    copy_fwd (padd input_even (n_output_todo - history_todo)) history_todo (history_even 0) ;;;
    deinterleave2 (padd input_odd (n_input_todo - history_todo * 2)) (history_todo * 2) (history_odd 0)
  else
    memmove_f (history_even 0) (history_even n_output_todo) (ORDER - 1) ;;;
    memmove_f (history_odd 0) (history_odd n_output_todo) (ORDER - 1).

(** Downsampler2::process_block, pandaresampler.cc:599-660.  The result tells
    whether the evenness check passed (false: a message is printed and the
    function returns).  [garbage]: initial contents of the stack array. *)
Definition down_process_block (garbage : Z -> A) (o : fir) (input : ptr) (n_input_samples : Z)
    (output : ptr) : M bool :=
  if negb (n_input_samples mod 2 =? 0) then ret false else
  alloc DBlock 1024 garbage ;;;
  while (Z.to_nat n_input_samples) (fun s => let '(n, _, _) := s in negb (n =? 0))
    (fun s => let '(n, inp, outp) := s in
       let n_input_todo := Z.min n (1024 * 2) in
       down_process_chunk o inp n_input_todo outp ;;;
       ret (n - n_input_todo, padd inp n_input_todo, padd outp (n_input_todo / 2)))
    (n_input_samples, input, output) ;;;
  free DBlock ;;;
  ret true.

(** Downsampler2::reset, pandaresampler.cc:674-679 *)
Definition down_reset (o : fir) : M unit :=
  fill (Ptr (HistE (f_tag o)) 0) (2 * f_order o) f0 ;;;
  fill (Ptr (HistO (f_tag o)) 0) (2 * f_order o) f0.
End Fir.
