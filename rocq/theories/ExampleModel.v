(** * The example of the documentation: class Saturation, pandaresampler.hh:386-411

    Two resamplers around a function that is applied to every sample at the
    higher rate.  In the documentation OVERSAMPLE = 8, PREC = PREC_72DB, and the
    function is tanh (x * DRIVE); here they are parameters. *)
From Coq Require Import ZArith List Lia Bool.
From Verif Require Import Arith Mem FirModel IirModel Tables ResamplerModel.
Import ListNotations.
Open Scope Z_scope.
Open Scope m_scope.

(** pandaresampler.hh:388-389 *)
Definition OVERSAMPLE := 8.
Definition PREC := PREC_72DB.

(** pandaresampler.hh:392-393 *)
Record saturation := Saturation { s_ups : resampler; s_downs : resampler }.

Section Example.
Context {A : arith} (plat : platform) (oversample prec : Z) (f : A -> A).

(** the default member initialisers, pandaresampler.hh:392-393; the two default
    arguments are use_sse_if_available = true, filter = FILTER_FIR.
    [idu], [idd]: identities of the two objects; the result also tells whether
    all checks of both constructors succeeded *)
Definition sat_new (idu idd : Z) : M A (saturation * bool) :=
  u <- construct plat idu UP oversample prec true FILTER_FIR ;;
  d <- construct plat idd DOWN oversample prec true FILTER_FIR ;;
  ret (Saturation (fst u) (fst d), snd u && snd d).

(** Saturation::reset, pandaresampler.hh:395-400 *)
Definition sat_reset (addr : blk -> Z) (s : saturation) : M A unit :=
  reset addr (s_ups s) ;;; reset addr (s_downs s).

(** Saturation::process, pandaresampler.hh:401-410.  [User k] is the array tmp of
    variable length with contents [gt], [gu] and [gd] are the contents of the
    stack arrays of the two calls.  size_t parameters are converted to uint. *)
Definition sat_process (addr : blk -> Z) (ndebug : bool) (gu gd : Z -> Z -> Z -> A) (gt : Z -> A) (k : Z)
    (s : saturation) (inp : ptr) (n_samples : Z) (out : ptr) : M A unit :=
  alloc (User k) (n_samples * oversample) gt ;;;
  process_block addr ndebug gu (s_ups s) inp (u32 n_samples) (Ptr (User k) 0) ;;;
  for_up (Z.to_nat (n_samples * oversample)) 0
    (fun i _ => x <- load (Ptr (User k) i) ;; store (Ptr (User k) i) (f x)) tt ;;;
  process_block addr ndebug gd (s_downs s) (Ptr (User k) 0) (u32 (n_samples * oversample)) out ;;;
  free (User k).
End Example.
