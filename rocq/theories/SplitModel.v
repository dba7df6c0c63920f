(** * The functions of the hiir classes that Resampler2 does not use

    The band split of the downsamplers, the functions for single samples, and
    the sections with the other sign (process_sample_neg).  References
    (DataType &low) are pointers. *)
From Coq Require Import ZArith List Lia Bool.
From Verif Require Import Arith Mem IirModel.
Open Scope Z_scope.
Open Scope m_scope.

Section Split.
Context {A : arith} (addr : blk -> Z) (ndebug : bool).
Notation M := (M A).

(** Downsampler2xFpuTpl::process_sample_split, Downsampler2xFpuTpl.hpp:157-171 *)
Definition fpu_process_sample_split (o : iir) (low high in_ptr : ptr) : M unit :=
  spl_0 <- load (padd in_ptr 1) ;;
  spl_1 <- load (padd in_ptr 0) ;;
  r <- stage_fpu_pos o (Z.to_nat (i_nc o)) spl_0 spl_1 ;;
  store low (fmul (fadd (fst r) (snd r)) fhalf) ;;;
  l <- load low ;;
  store high (fsub (fst r) l).

(** the asserts of process_block_split, Downsampler2xFpuTpl.hpp:202-208, Downsampler2xSse.hpp:220-226 *)
Definition split_asserts (out_l_ptr out_h_ptr in_ptr : ptr) (nbr_spl : Z) : M unit :=
  assert_ ndebug ((paddr addr out_l_ptr <=? paddr addr in_ptr)
           || (paddr addr in_ptr + 4 * (nbr_spl * 2) <=? paddr addr out_l_ptr)) ;;;
  assert_ ndebug ((paddr addr out_h_ptr <=? paddr addr in_ptr)
           || (paddr addr in_ptr + 4 * (nbr_spl * 2) <=? paddr addr out_h_ptr)) ;;;
  assert_ ndebug (negb (paddr addr out_h_ptr =? paddr addr out_l_ptr)) ;;;
  assert_ ndebug (0 <? nbr_spl).

(** Downsampler2xFpuTpl::process_block_split, Downsampler2xFpuTpl.hpp:199-221 *)
Definition fpu_process_block_split (o : iir) (out_l_ptr out_h_ptr in_ptr : ptr) (nbr_spl : Z) : M unit :=
  split_asserts out_l_ptr out_h_ptr in_ptr nbr_spl ;;;
  do_while_pos nbr_spl (fun pos =>
    fpu_process_sample_split o (padd out_l_ptr pos) (padd out_h_ptr pos) (padd in_ptr (pos * 2))).

(** Upsampler2xSse::process_sample, Upsampler2xSse.hpp:112-119: returns (out_0, out_1) *)
Definition sse_up_process_sample (o : iir) (input : A) : M (A * A) :=
  x <- stage_sse_pos addr o (vset1 input) ;;
  let out_1 := l0 x in
  ret (l1 x, out_1).

(** Downsampler2xSse::process_sample, Downsampler2xSse.hpp:107-117 *)
Definition sse_down_process_sample (o : iir) (in_ptr : ptr) : M A :=
  v <- loadu4 in_ptr ;;
  x <- stage_sse_pos addr o v ;;
  ret (fmul (fadd (l0 x) (l1 x)) fhalf).

(** Downsampler2xSse::process_sample_split, Downsampler2xSse.hpp:178-188 *)
Definition sse_process_sample_split (o : iir) (low high in_ptr : ptr) : M unit :=
  v <- loadu4 in_ptr ;;
  x <- stage_sse_pos addr o v ;;
  let x := vmap2 fmul x (vset1 fhalf) in
  store low (fadd (l1 x) (l0 x)) ;;;
  store high (fsub (l1 x) (l0 x)).

(** Downsampler2xSse::process_block_split, Downsampler2xSse.hpp:217-238 *)
Definition sse_process_block_split (o : iir) (out_l_ptr out_h_ptr in_ptr : ptr) (nbr_spl : Z) : M unit :=
  split_asserts out_l_ptr out_h_ptr in_ptr nbr_spl ;;;
  for_up (Z.to_nat nbr_spl) 0
    (fun pos _ =>
       v <- loadu4 (padd in_ptr (pos * 2)) ;;
       x <- stage_sse_pos addr o v ;;
       let x := vmap2 fmul x (vset1 fhalf) in
       store (padd out_l_ptr pos) (fadd (l1 x) (l0 x)) ;;;
       store (padd out_h_ptr pos) (fsub (l1 x) (l0 x))) tt.

(** StageProcFpu<REMAINING>::process_sample_neg, StageProcFpu.hpp:104-157 *)
Fixpoint stage_fpu_neg (o : iir) (remaining : nat) (spl_0 spl_1 : A) : M (A * A) :=
  let cnt := i_nc o + 2 - Z.of_nat remaining in
  match remaining with
  | O =>                                                  (* lines 150-157 *)
      store (fmem o (cnt - 2)) spl_0 ;;;
      store (fmem o (cnt - 1)) spl_1 ;;;
      ret (spl_0, spl_1)
  | S O =>                                                (* lines 133-148 *)
      m0 <- load (fmem o cnt) ;; c0 <- load (fcoef o cnt) ;; p0 <- load (fmem o (cnt - 2)) ;;
      let tmp_0 := fsub (fmul (fadd spl_0 m0) c0) p0 in
      store (fmem o (cnt - 2)) spl_0 ;;;
      store (fmem o (cnt - 1)) spl_1 ;;;
      store (fmem o cnt) tmp_0 ;;;
      ret (tmp_0, spl_1)
  | S (S r) =>                                            (* lines 104-131 *)
      m0 <- load (fmem o cnt) ;; c0 <- load (fcoef o cnt) ;; p0 <- load (fmem o (cnt - 2)) ;;
      let tmp_0 := fsub (fmul (fadd spl_0 m0) c0) p0 in
      m1 <- load (fmem o (cnt + 1)) ;; c1 <- load (fcoef o (cnt + 1)) ;;
      p1 <- load (fmem o (cnt - 1)) ;;
      let tmp_1 := fsub (fmul (fadd spl_1 m1) c1) p1 in
      store (fmem o (cnt - 2)) spl_0 ;;;
      store (fmem o (cnt - 1)) spl_1 ;;;
      stage_fpu_neg o r tmp_0 tmp_1
  end.

(** StageProcSseV2<CUR>::process_sample_neg_rec, StageProcSseV2.hpp:77-94 *)
Fixpoint stage_sse_neg_rec (o : iir) (cur : nat) (x : v4 A) : M (v4 A) :=
  match cur with
  | O => ret x
  | S c =>
      x <- stage_sse_neg_rec o c x ;;
      tmp <- load4 addr (fmem o (4 * Z.of_nat c)) ;;
      store4 addr (fmem o (4 * Z.of_nat c)) x ;;;
      m <- load4 addr (fmem o (4 * Z.of_nat cur)) ;;
      co <- load4 addr (fcoef o (4 * Z.of_nat cur)) ;;
      ret (vmap2 fsub (vmap2 fmul (vmap2 fadd x m) co) tmp)
  end.

(** StageProcSseV2<CUR>::process_sample_neg, StageProcSseV2.hpp:47-52 *)
Definition stage_sse_neg (o : iir) (x : v4 A) : M (v4 A) :=
  x <- stage_sse_neg_rec o (Z.to_nat (nbr_stages o)) x ;;
  store4 addr (fmem o (4 * nbr_stages o)) x ;;;
  ret x.
End Split.
