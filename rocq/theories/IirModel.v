(** * IIR resampler: transcription of the hiir classes used by
      pandaresampler.cc:1074-1226

    Simplification: the array of structs _filter (one _coef and one _mem
    member per stage) is represented by two arrays FCoef and FMem of the same
    length; for the SSE classes a member is a group of four floats. *)
From Coq Require Import ZArith List Lia Bool.
From Verif Require Import Arith Mem.
Open Scope Z_scope.
Open Scope m_scope.

Section Iir.
Context {A : arith} (addr : blk -> Z) (ndebug : bool).
Notation M := (M A).

(** assert (b): nothing when compiled with NDEBUG, abort otherwise *)
Definition assert_ (b : bool) : M unit :=
  if ndebug || b then ret tt else fail AssertFail.

(** i_nc: the template parameter NC (number of coefficients) *)
Record iir := Iir { i_nc : Z; i_tag : Z }.

Definition fmem (o : iir) (i : Z) : ptr := Ptr (FMem (i_tag o)) i.
Definition fcoef (o : iir) (i : Z) : ptr := Ptr (FCoef (i_tag o)) i.

(** ** FPU version *)

(** StageDataFpu.h:42-43 (members start at 0) and set_coefs,
    Upsampler2xFpuTpl.hpp:62-70, Downsampler2xFpuTpl.hpp:62-70 *)
Definition fpu_construct (o : iir) (coef_arr : Z -> A) : M unit :=
  alloc (FCoef (i_tag o)) (i_nc o + 2) (fun _ => f0) ;;;
  alloc (FMem (i_tag o)) (i_nc o + 2) (fun _ => f0) ;;;
  for_up (Z.to_nat (i_nc o)) 0 (fun i _ => store (fcoef o (i + 2)) (coef_arr i)) tt.

(** StageProcFpu<REMAINING>::process_sample_pos, StageProcFpu.hpp:47-100 *)
Fixpoint stage_fpu_pos (o : iir) (remaining : nat) (spl_0 spl_1 : A) : M (A * A) :=
  let cnt := i_nc o + 2 - Z.of_nat remaining in
  match remaining with
  | O =>                                                  (* lines 93-100 *)
      store (fmem o (cnt - 2)) spl_0 ;;;
      store (fmem o (cnt - 1)) spl_1 ;;;
      ret (spl_0, spl_1)
  | S O =>                                                (* lines 76-91 *)
      m0 <- load (fmem o cnt) ;; c0 <- load (fcoef o cnt) ;; p0 <- load (fmem o (cnt - 2)) ;;
      let tmp_0 := fadd (fmul (fsub spl_0 m0) c0) p0 in
      store (fmem o (cnt - 2)) spl_0 ;;;
      store (fmem o (cnt - 1)) spl_1 ;;;
      store (fmem o cnt) tmp_0 ;;;
      ret (tmp_0, spl_1)
  | S (S r) =>                                            (* lines 47-74 *)
      m0 <- load (fmem o cnt) ;; c0 <- load (fcoef o cnt) ;; p0 <- load (fmem o (cnt - 2)) ;;
      let tmp_0 := fadd (fmul (fsub spl_0 m0) c0) p0 in
      m1 <- load (fmem o (cnt + 1)) ;; c1 <- load (fcoef o (cnt + 1)) ;;
      p1 <- load (fmem o (cnt - 1)) ;;
      let tmp_1 := fadd (fmul (fsub spl_1 m1) c1) p1 in
      store (fmem o (cnt - 2)) spl_0 ;;;
      store (fmem o (cnt - 1)) spl_1 ;;;
      stage_fpu_pos o r tmp_0 tmp_1
  end.

(** Upsampler2xFpuTpl::process_sample, Upsampler2xFpuTpl.hpp:88-101 *)
Definition fpu_up_process_sample (o : iir) (input : A) : M (A * A) :=
  stage_fpu_pos o (Z.to_nat (i_nc o)) input input.

(** do body (pos); ++pos; while (pos < n), starting at pos = 0 *)
Definition do_while_pos (n : Z) (body : Z -> M unit) : M unit :=
  body 0 ;;;
  while (Z.to_nat n) (fun pos => pos <? n) (fun pos => body pos ;;; ret (pos + 1)) 1 ;;;
  ret tt.

(** Upsampler2xFpuTpl::process_block, Upsampler2xFpuTpl.hpp:120-139 *)
Definition fpu_up_process_block (o : iir) (out_ptr in_ptr : ptr) (nbr_spl : Z) : M unit :=
  assert_ ((paddr addr in_ptr + 4 * nbr_spl <=? paddr addr out_ptr)
           || (paddr addr out_ptr + 4 * nbr_spl <=? paddr addr in_ptr)) ;;;
  assert_ (0 <? nbr_spl) ;;;
  do_while_pos nbr_spl (fun pos =>
    x <- load (padd in_ptr pos) ;;
    r <- fpu_up_process_sample o x ;;
    store (padd out_ptr (pos * 2)) (fst r) ;;;
    store (padd out_ptr (pos * 2 + 1)) (snd r)).

(** Downsampler2xFpuTpl::process_sample, Downsampler2xFpuTpl.hpp:86-99 *)
Definition fpu_down_process_sample (o : iir) (in_ptr : ptr) : M A :=
  spl_0 <- load (padd in_ptr 1) ;;
  spl_1 <- load (padd in_ptr 0) ;;
  r <- stage_fpu_pos o (Z.to_nat (i_nc o)) spl_0 spl_1 ;;
  ret (fmul fhalf (fadd (fst r) (snd r))).

(** Downsampler2xFpuTpl::process_block, Downsampler2xFpuTpl.hpp:118-133 *)
Definition fpu_down_process_block (o : iir) (out_ptr in_ptr : ptr) (nbr_spl : Z) : M unit :=
  assert_ ((paddr addr out_ptr <=? paddr addr in_ptr)
           || (paddr addr in_ptr + 4 * (nbr_spl * 2) <=? paddr addr out_ptr)) ;;;
  assert_ (0 <? nbr_spl) ;;;
  do_while_pos nbr_spl (fun pos =>
    y <- fpu_down_process_sample o (padd in_ptr (pos * 2)) ;;
    store (padd out_ptr pos) y).

(** clear_buffers, Upsampler2xFpuTpl.hpp:153-160, Downsampler2xFpuTpl.hpp:235-242 *)
Definition fpu_clear_buffers (o : iir) : M unit :=
  for_up (Z.to_nat (i_nc o + 2)) 0 (fun i _ => store (fmem o i) f0) tt.

(** ** SSE version *)

(** _nbr_stages, Upsampler2xSse.h:95-96, Downsampler2xSse.h:98, with _stage_width = 2 *)
Definition nbr_stages (o : iir) : Z := (i_nc o + 2 - 1) / 2.

(** constructors (Upsampler2xSse.hpp:51-65, Downsampler2xSse.hpp:49-62) and
    set_coefs (Upsampler2xSse.hpp:83-94, Downsampler2xSse.hpp:80-91) *)
Definition sse_construct (o : iir) (coef_arr : Z -> A) : M unit :=
  alloc (FCoef (i_tag o)) (4 * (nbr_stages o + 1)) (fun _ => f0) ;;;
  alloc (FMem (i_tag o)) (4 * (nbr_stages o + 1)) (fun _ => f0) ;;;
  (if i_nc o <? nbr_stages o * 2 then store (fcoef o (4 * nbr_stages o)) f1 else ret tt) ;;;
  for_up (Z.to_nat (i_nc o)) 0
    (fun i _ => let stage := i / 2 + 1 in
                let pos := Z.land (Z.lxor i 1) 1 in
                store (fcoef o (4 * stage + pos)) (coef_arr i)) tt.

(** StageProcSseV2<CUR>::process_sample_pos_rec, StageProcSseV2.hpp:56-73 *)
Fixpoint stage_sse_pos_rec (o : iir) (cur : nat) (x : v4 A) : M (v4 A) :=
  match cur with
  | O => ret x
  | S c =>
      x <- stage_sse_pos_rec o c x ;;
      tmp <- load4 addr (fmem o (4 * Z.of_nat c)) ;;
      store4 addr (fmem o (4 * Z.of_nat c)) x ;;;
      m <- load4 addr (fmem o (4 * Z.of_nat cur)) ;;
      co <- load4 addr (fcoef o (4 * Z.of_nat cur)) ;;
      ret (vmap2 fadd (vmap2 fmul (vmap2 fsub x m) co) tmp)
  end.

(** StageProcSseV2<CUR>::process_sample_pos, StageProcSseV2.hpp:38-43 *)
Definition stage_sse_pos (o : iir) (x : v4 A) : M (v4 A) :=
  x <- stage_sse_pos_rec o (Z.to_nat (nbr_stages o)) x ;;
  store4 addr (fmem o (4 * nbr_stages o)) x ;;;
  ret x.

(** Upsampler2xSse::process_block, Upsampler2xSse.hpp:139-158; shuffle (x, x, 1)
    moves lane 1 to lane 0 and lane 0 to lane 1, storel_pi stores these two *)
Definition sse_up_process_block (o : iir) (out_ptr in_ptr : ptr) (nbr_spl : Z) : M unit :=
  assert_ ((paddr addr in_ptr + 4 * nbr_spl <=? paddr addr out_ptr)
           || (paddr addr out_ptr + 4 * nbr_spl <=? paddr addr in_ptr)) ;;;
  assert_ (0 <? nbr_spl) ;;;
  for_up (Z.to_nat nbr_spl) 0
    (fun pos _ =>
       s <- load (padd in_ptr pos) ;;
       x <- stage_sse_pos o (vset1 s) ;;
       store (padd out_ptr (pos * 2)) (l1 x) ;;;
       store (padd out_ptr (pos * 2 + 1)) (l0 x)) tt.

(** Downsampler2xSse::process_block, Downsampler2xSse.hpp:137-154; note the
    4-float load although only two samples are used *)
Definition sse_down_process_block (o : iir) (out_ptr in_ptr : ptr) (nbr_spl : Z) : M unit :=
  assert_ ((paddr addr out_ptr <=? paddr addr in_ptr)
           || (paddr addr in_ptr + 4 * (nbr_spl * 2) <=? paddr addr out_ptr)) ;;;
  assert_ (0 <? nbr_spl) ;;;
  for_up (Z.to_nat nbr_spl) 0
    (fun pos _ =>
       v <- loadu4 (padd in_ptr (pos * 2)) ;;
       x <- stage_sse_pos o v ;;
       store (padd out_ptr pos) (fmul (fadd (l0 x) (l1 x)) fhalf)) tt.

(** clear_buffers, Upsampler2xSse.hpp:172-179, Downsampler2xSse.hpp:252-259 *)
Definition sse_clear_buffers (o : iir) : M unit :=
  for_up (Z.to_nat (nbr_stages o + 1)) 0
    (fun i _ => store4 addr (fmem o (4 * i)) (vset1 f0)) tt.
End Iir.
