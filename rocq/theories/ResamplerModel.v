(** * Resampler2: transcription of pandaresampler.hh:112-352 and
      pandaresampler.cc:62-162, 687-690, 1058-1072, 1228-1231, 1366-1391 *)
From Coq Require Import ZArith List Lia Bool String.
From Flocq Require Import Core BinarySingleNaN.
From Verif Require Import Arith Mem FirModel IirModel Tables ArithF.
Import ListNotations.
Open Scope Z_scope.
Open Scope m_scope.

(** the macros __SSE__ and PANDA_RESAMPLER_NEON *)
Record platform := Platform { has_sse : bool; has_neon : bool }.

(** pandaresampler.hh:144-162; Precision is represented by its enum value, so
    that values outside the enumeration can be considered too *)
Inductive rmode := UP | DOWN.
Inductive rfilter := FILTER_IIR | FILTER_FIR.
Definition PREC_LINEAR := 1.
Definition PREC_48DB := 8.
Definition PREC_72DB := 12.
Definition PREC_96DB := 16.
Definition PREC_120DB := 20.
Definition PREC_144DB := 24.

(** the classes derived from Resampler2::Impl; a double group delay for the
    IIR classes *)
Inductive impl :=
| FirUp (o : fir)                 (* Upsampler2<ORDER, USE_SSE> *)
| FirDown (o : fir)               (* Downsampler2<ORDER, USE_SSE> *)
| IirUp (o : iir) (gd : b64)      (* IIRUpsampler2<ORDER> *)
| IirDown (o : iir) (gd : b64)    (* IIRDownsampler2<ORDER> *)
| IirUpSse (o : iir) (gd : b64)   (* IIRUpsampler2SSE<ORDER> *)
| IirDownSse (o : iir) (gd : b64) (* IIRDownsampler2SSE<ORDER> *).

(** find_precision_for_bits, pandaresampler.cc:127-146 *)
Definition find_precision_for_bits (bits : Z) : Z :=
  if bits <=? 1 then PREC_LINEAR else
  if bits <=? 8 then PREC_48DB else
  if bits <=? 12 then PREC_72DB else
  if bits <=? 16 then PREC_96DB else
  if bits <=? 20 then PREC_120DB else
  PREC_144DB.

(** precision_name, pandaresampler.cc:148-162 *)
Definition precision_name (precision : Z) : string :=
  if precision =? PREC_LINEAR then "linear interpolation" else
  if precision =? PREC_48DB then "8 bit (48dB)" else
  if precision =? PREC_72DB then "12 bit (72dB)" else
  if precision =? PREC_96DB then "16 bit (96dB)" else
  if precision =? PREC_120DB then "20 bit (120dB)" else
  if precision =? PREC_144DB then "24 bit (144dB)" else
  "unknown precision enum value".

(** sse_available, pandaresampler.cc:116-125 *)
Definition sse_available (p : platform) : bool := has_sse p || has_neon p.

Definition lit64 (x : dec) : b64 := let '(m, e) := dec_to_double x in b64_dy m e.

(** IIRDownsampler2 and IIRDownsampler2SSE constructors, pandaresampler.cc:1080,1157 *)
Definition iir_down_delay (group_delay : b64) : b64 :=
  b64_div (b64_minus group_delay (b64_dy 1 0)) (b64_dy 2 0).

(** order() of the implementations, pandaresampler.cc:469-473, 664-668, 1091-1095 etc. *)
Definition impl_order (i : impl) : Z :=
  match i with
  | FirUp o | FirDown o => f_order o
  | IirUp o _ | IirDown o _ | IirUpSse o _ | IirDownSse o _ => i_nc o
  end.

(** delay() of the implementations: pandaresampler.cc:474-478, 669-673, 1096-1100 etc.
    (unsigned arithmetic in order() - 1 and order() / 2) *)
Definition impl_delay (i : impl) : b64 :=
  match i with
  | FirUp o => b64_dy (u32 (f_order o - 1)) 0
  | FirDown o => b64_minus (b64_dy (f_order o / 2) 0) (b64_dy 1 (-1))
  | IirUp _ gd | IirUpSse _ gd => gd
  | IirDown _ gd | IirDownSse _ gd => iir_down_delay gd
  end.

(** sse_enabled() of the implementations *)
Definition impl_sse_enabled (i : impl) : bool :=
  match i with
  | FirUp o | FirDown o => f_sse o
  | IirUp _ _ | IirDown _ _ => false
  | IirUpSse _ _ | IirDownSse _ _ => true
  end.

(** A Resampler2 object.  [r_id] identifies the instance: its stages own the
    memory blocks with tags 16 * r_id + stage ratio. *)
Record resampler := Resampler {
  r_id : Z; r_mode : rmode; r_ratio : Z; r_prec : Z; r_use_sse : bool; r_filter : rfilter;
  impl_x2 : option impl; impl_x4 : option impl; impl_x8 : option impl }.

Section Res.
Context {A : arith} (plat : platform) (addr : blk -> Z) (ndebug : bool).
Notation M := (M A).

Definition nth_f (l : list A) (i : Z) : A := nth (Z.to_nat i) l f0.

Definition deref (i : option impl) : M impl :=
  match i with Some i => ret i | None => fail NullDeref end.

(** create_impl<USE_SSE>, pandaresampler.cc:687-1072, with
    create_impl_with_coeffs, pandaresampler.hh:323-337 (the order check always
    passes, because the order argument is the ORDER of the class) *)
Definition create_impl_fir (use_sse : bool) (id : Z) (m : rmode) (prec stage_ratio : Z)
  : M (option impl) :=
  match fir_table stage_ratio prec with
  | None => ret None
  | Some t =>
      let o := Fir (Z.of_nat (List.length t)) use_sse (16 * id + stage_ratio) in
      match m with
      | UP => up_construct o (nth_f (map (fun d => lit d 1) t)) ;;; ret (Some (FirUp o))
      | DOWN => down_construct o (nth_f (map (fun d => lit d 0) t)) ;;; ret (Some (FirDown o))
      end
  end.

(** create_impl_iir<USE_SSE>, pandaresampler.cc:1228-1367, with
    create_impl_iir_with_coeffs, pandaresampler.cc:1369-1391 (the template
    argument USE_SSE is not used) *)
Definition create_impl_iir (use_sse_if_available : bool) (id : Z) (m : rmode) (prec stage_ratio : Z)
  : M (option impl) :=
  match iir_table stage_ratio prec with
  | None => ret None
  | Some (t, gd) =>
      let o := Iir (Z.of_nat (List.length t)) (16 * id + stage_ratio) in
      let coefs := nth_f (map (fun d => lit d 0) t) in
      if has_sse plat && use_sse_if_available then
        sse_construct o coefs ;;;
        ret (Some (match m with UP => IirUpSse o (lit64 gd) | DOWN => IirDownSse o (lit64 gd) end))
      else
        fpu_construct o coefs ;;;
        ret (Some (match m with UP => IirUp o (lit64 gd) | DOWN => IirDown o (lit64 gd) end))
  end.

(** init_stage, pandaresampler.cc:83-114; called with a null impl.  The second
    result is the value of the final PANDA_RESAMPLER_CHECK. *)
Definition init_stage (id : Z) (m : rmode) (ratio prec : Z) (use_sse : bool) (f : rfilter)
    (stage_ratio : Z) : M (option impl * bool) :=
  if ratio <? stage_ratio then ret (None, true) else
  i <- match f with
       | FILTER_FIR => create_impl_fir (sse_available plat && use_sse) id m prec stage_ratio
       | FILTER_IIR => create_impl_iir use_sse id m prec stage_ratio
       end ;;
  ret (i, match i with Some _ => true | None => false end).

(** Resampler2::Resampler2, pandaresampler.cc:63-81.  The second result is true
    if no PANDA_RESAMPLER_CHECK failed (a failing check only prints to stderr). *)
Definition construct (id : Z) (m : rmode) (ratio prec : Z) (use_sse : bool) (f : rfilter)
  : M (resampler * bool) :=
  let ok := (ratio =? 1) || (ratio =? 2) || (ratio =? 4) || (ratio =? 8) in
  i2 <- init_stage id m ratio prec use_sse f 2 ;;
  i4 <- init_stage id m ratio prec use_sse f 4 ;;
  i8 <- init_stage id m ratio prec use_sse f 8 ;;
  ret (Resampler id m ratio prec use_sse f (fst i2) (fst i4) (fst i8),
       ok && snd i2 && snd i4 && snd i8).

(** virtual process_block; the IIR classes: pandaresampler.cc:1084-1090,
    1123-1127, 1161-1167, 1200-1204.  [g key]: initial contents of a stack array
    (key 0: tmp, key 1: tmp2, other keys: the block array of a Downsampler2). *)
Definition impl_process_block (g : Z -> Z -> A) (i : impl) (input : ptr) (n : Z) (output : ptr) : M unit :=
  match i with
  | FirUp o => up_process_block addr o input n output
  | FirDown o => down_process_block addr (g (f_tag o)) o input n output ;;; ret tt
  | IirUp o _ => fpu_up_process_block addr ndebug o output input n
  | IirDown o _ => fpu_down_process_block addr ndebug o output input (n / 2)
  | IirUpSse o _ => sse_up_process_block addr ndebug o output input n
  | IirDownSse o _ => sse_down_process_block addr ndebug o output input (n / 2)
  end.

Definition impl_reset (i : impl) : M unit :=
  match i with
  | FirUp o => up_reset o
  | FirDown o => down_reset o
  | IirUp o _ | IirDown o _ => fpu_clear_buffers o
  | IirUpSse o _ | IirDownSse o _ => sse_clear_buffers addr o
  end.

Definition call_impl (g : Z -> Z -> A) (i : option impl) (input : ptr) (n : Z) (output : ptr) : M unit :=
  i <- deref i ;; impl_process_block g i input n output.

(** one iteration of the loop of Resampler2::process_block, pandaresampler.hh:209-249 *)
Definition cascade_chunk (g : Z -> Z -> A) (r : resampler) (input : ptr) (n_todo_samples : Z)
    (output : ptr) : M ptr :=
  alloc Tmp (1024 * 4) (g 0) ;;;
  alloc Tmp2 (1024 * 4) (g 1) ;;;
  let tmp := Ptr Tmp 0 in
  let tmp2 := Ptr Tmp2 0 in
  o <- match r_mode r with
       | UP =>
           (if r_ratio r =? 4 then
              call_impl g (impl_x2 r) input n_todo_samples tmp ;;;
              call_impl g (impl_x4 r) tmp (n_todo_samples * 2) output
            else
              call_impl g (impl_x2 r) input n_todo_samples tmp ;;;
              call_impl g (impl_x4 r) tmp (n_todo_samples * 2) tmp2 ;;;
              call_impl g (impl_x8 r) tmp2 (n_todo_samples * 4) output) ;;;
           ret (padd output (u32 (n_todo_samples * r_ratio r)))
       | DOWN =>
           (if r_ratio r =? 4 then
              call_impl g (impl_x4 r) input n_todo_samples tmp ;;;
              call_impl g (impl_x2 r) tmp (n_todo_samples / 2) output
            else
              call_impl g (impl_x8 r) input n_todo_samples tmp ;;;
              call_impl g (impl_x4 r) tmp (n_todo_samples / 2) tmp2 ;;;
              call_impl g (impl_x2 r) tmp2 (n_todo_samples / 4) output) ;;;
           ret (padd output (n_todo_samples / r_ratio r))
       end ;;
  free Tmp ;;; free Tmp2 ;;;
  ret o.

(** Resampler2::process_block, pandaresampler.hh:196-251.  [g n]: initial contents
    of the stack arrays when n samples remain to be processed. *)
Definition process_block (g : Z -> Z -> Z -> A) (r : resampler) (input : ptr) (n_input_samples : Z)
    (output : ptr) : M unit :=
  if r_ratio r =? 2 then
    call_impl (g n_input_samples) (impl_x2 r) input n_input_samples output
  else if r_ratio r =? 1 then
    copy_fwd input n_input_samples output
  else
    while (Z.to_nat n_input_samples) (fun s => let '(n, _, _) := s in negb (n =? 0))
      (fun s => let '(n, inp, outp) := s in
         let n_todo_samples := Z.min 1024 n in
         outp' <- cascade_chunk (g n) r inp n_todo_samples outp ;;
         ret (n - n_todo_samples, padd inp n_todo_samples, outp'))
      (n_input_samples, input, output) ;;;
    ret tt.

(** Resampler2::reset, pandaresampler.hh:296-308 *)
Definition reset (r : resampler) : M unit :=
  (if 2 <=? r_ratio r then i <- deref (impl_x2 r) ;; impl_reset i else ret tt) ;;;
  (if 4 <=? r_ratio r then i <- deref (impl_x4 r) ;; impl_reset i else ret tt) ;;;
  (if 8 <=? r_ratio r then i <- deref (impl_x8 r) ;; impl_reset i else ret tt).
End Res.

(** ** Queries, which do not touch memory *)
Definition rbind {X Y} (c : res X) (k : X -> res Y) : res Y :=
  match c with Ok x => k x | Err e => Err e end.
Definition rderef (i : option impl) : res impl :=
  match i with Some i => Ok i | None => Err NullDeref end.

(** Resampler2::order, pandaresampler.hh:255-259 *)
Definition order (r : resampler) : res Z :=
  rbind (rderef (impl_x2 r)) (fun i => Ok (impl_order i)).

(** Resampler2::sse_enabled, pandaresampler.hh:312-316 *)
Definition sse_enabled (r : resampler) : res bool :=
  rbind (rderef (impl_x2 r)) (fun i => Ok (impl_sse_enabled i)).

(** Resampler2::delay, pandaresampler.hh:272-295, in double precision *)
Definition delay (r : resampler) : res b64 :=
  let stage (c : bool) (i : option impl) (k : b64 -> b64) (d : b64) : res b64 :=
    if c then rbind (rderef i) (fun i => Ok (k (impl_delay i))) else Ok d in
  let d := b64_dy 0 0 in
  match r_mode r with
  | UP =>
      rbind (stage (2 <=? r_ratio r) (impl_x2 r) (fun x => b64_plus d x) d) (fun d =>
      rbind (stage (4 <=? r_ratio r) (impl_x4 r) (fun x => b64_plus d (b64_plus d x)) d) (fun d =>
      stage (8 <=? r_ratio r) (impl_x8 r) (fun x => b64_plus d (b64_plus d x)) d))
  | DOWN =>
      rbind (stage (2 <=? r_ratio r) (impl_x2 r) (fun x => b64_plus d x) d) (fun d =>
      rbind (stage (4 <=? r_ratio r) (impl_x4 r) (fun x => b64_plus d (b64_div x (b64_dy 2 0))) d) (fun d =>
      stage (8 <=? r_ratio r) (impl_x8 r) (fun x => b64_plus d (b64_div x (b64_dy 4 0))) d))
  end.
