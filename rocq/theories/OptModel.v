(** * The command line of tests/testresampler.cc: check_arg, Options::parse, standalone, main

    atoi and atof are oracles: any functions from strings to int and to double.
    Values of type double are real numbers, infinities or NaN (as in AccuracyModel.v).
    strings are C strings (no character is NUL).  Messages are not modelled. *)
From Coq Require Import String Ascii ZArith Reals List Lia Bool.
From Verif Require Import Arith Mem FirModel IirModel Tables ResamplerModel AccuracyModel.
Import ListNotations.
Open Scope nat_scope.

(** how a piece of the program ends: normally, by exit (code), or with an error *)
Inductive fault := OutOfBounds | NullPointer | AssertFailed | NoFuel.
Inductive outcome (X : Type) := Done (x : X) | Exit (code : Z) | Fault (f : fault).
Arguments Done {X}. Arguments Exit {X}. Arguments Fault {X}.
Definition andthen {X Y} (c : outcome X) (k : X -> outcome Y) : outcome Y :=
  match c with Done x => k x | Exit n => Exit n | Fault f => Fault f end.
Declare Scope o_scope.
Delimit Scope o_scope with o.
Notation "x <- c ; k" := (andthen c (fun x => k)) (at level 61, c at next level, right associativity) : o_scope.
Open Scope o_scope.

(** an array of pointers to strings; None is NULL *)
Definition args := list (option string).
Definition get (argv : args) (i : nat) : outcome (option string) :=
  match nth_error argv i with Some p => Done p | None => Fault OutOfBounds end.
Fixpoint set (argv : args) (i : nat) (p : option string) : outcome args :=
  match argv, i with
  | [], _ => Fault OutOfBounds
  | _ :: l, O => Done (p :: l)
  | q :: l, S k => l' <- set l k p; Done (q :: l')
  end.
Definition str (p : option string) : outcome string :=
  match p with Some s => Done s | None => Fault NullPointer end.

(** strcmp (a, b) == 0; strncmp (a, b, strlen (b)) == 0; a + n *)
Definition same (a b : string) : bool := String.eqb a b.
Definition begins (a b : string) : bool := String.prefix b a.
Definition tail (n : nat) (a : string) : string := String.substring n (String.length a - n) a.

(** check_arg, testresampler.cc:187-232.  [want]: opt_arg is not NULL.  The result: None if
    false is returned; otherwise the array, *nth and *opt_arg *)
Definition check_arg (argc : nat) (argv : args) (nth : nat) (opt : string) (want : bool)
  : outcome (option (args * nat * option string)) :=
  if negb (nth <? argc) then Fault AssertFailed else
  p <- get argv nth;
  match p with
  | None => Done None
  | Some arg =>
      if same arg opt then
        if want && (nth + 1 <? argc) then
          argv <- set argv nth None;
          let nth := nth + 1 in
          a <- get argv nth;
          argv <- set argv nth None;
          Done (Some (argv, nth, a))
        else if negb want then
          argv <- set argv nth None;
          Done (Some (argv, nth, None))
        else Exit 1
      else if begins arg opt && (match String.get (String.length opt) arg with Some c => Ascii.eqb c "=" | None => false end) then
        if want then
          argv <- set argv nth None;
          Done (Some (argv, nth, Some (tail (String.length opt + 1) arg)))
        else Exit 1
      else Done None
  end.

(** struct Options, testresampler.cc:107-124, and the global resample_type *)
Record options := Options {
  block_size : Z; frequency : xdouble; freq_min : xdouble; freq_max : xdouble; freq_inc : xdouble;
  freq_scan_verbose : bool; max_threshold_db : xdouble; precision : Z; filter_impl_verbose : bool;
  verbose : bool; use_sse : bool; rtype : resample_type }.
Definition defaults : options :=
  Options 128 (Fin 440) (Fin (-1)) (Fin (-1)) (Fin 0) false (Fin 0) PREC_96DB false false false RES_UPSAMPLE.

Section Parse.
Context (atoi : string -> Z) (atof : string -> xdouble).

(** strtok (oa, ","): the pieces between commas that are not empty *)
Fixpoint pieces (s cur : string) : list string :=
  match s with
  | EmptyString => if same cur "" then [] else [cur]
  | String c r =>
      if Ascii.eqb c "," then (if same cur "" then pieces r "" else cur :: pieces r "")
      else pieces r (cur ++ String c "")
  end.

Definition set_block_size (a : string) (o : options) : outcome options :=
  let bs := u32 (atoi a) in
  let bs := if (Z.land bs 1 =? 1)%Z then u32 (bs + 1) else bs in
  let bs := if (bs <? 2)%Z then 2%Z else bs in
  Done (Options bs (frequency o) (freq_min o) (freq_max o) (freq_inc o) (freq_scan_verbose o) (max_threshold_db o)
    (precision o) (filter_impl_verbose o) (verbose o) (use_sse o) (rtype o)).
Definition with_precision (p : Z) (o : options) : options :=
  Options (block_size o) (frequency o) (freq_min o) (freq_max o) (freq_inc o) (freq_scan_verbose o) (max_threshold_db o)
    p (filter_impl_verbose o) (verbose o) (use_sse o) (rtype o).
Definition set_precision (a : string) (o : options) : outcome options :=
  let p := atoi a in
  if ((p =? 8) || (p =? 12) || (p =? 16) || (p =? 20) || (p =? 24))%Z then Done (with_precision p o) else Exit 1.
Definition no_sse (o : options) : options :=
  Options (block_size o) (frequency o) (freq_min o) (freq_max o) (freq_inc o) (freq_scan_verbose o) (max_threshold_db o)
    (precision o) (filter_impl_verbose o) (verbose o) false (rtype o).
Definition set_freq_scan (a : string) (o : options) : outcome options :=
  let o := match pieces a "" with
    | fmin :: fmax :: finc :: _ =>
        Options (block_size o) (frequency o) (atof fmin) (atof fmax) (atof finc) (freq_scan_verbose o) (max_threshold_db o)
          (precision o) (filter_impl_verbose o) (verbose o) (use_sse o) (rtype o)
    | _ => o
    end in
  if xlt (freq_inc o) (Fin 1) then Exit 1 else Done o.
Definition set_scan_verbose (o : options) : options :=
  Options (block_size o) (frequency o) (freq_min o) (freq_max o) (freq_inc o) true (max_threshold_db o)
    (precision o) (filter_impl_verbose o) (verbose o) (use_sse o) (rtype o).
Definition set_frequency (a : string) (o : options) : outcome options :=
  Done (Options (block_size o) (atof a) (freq_min o) (freq_max o) (freq_inc o) (freq_scan_verbose o) (max_threshold_db o)
    (precision o) (filter_impl_verbose o) (verbose o) (use_sse o) (rtype o)).
Definition xneg (a : xdouble) : xdouble :=
  match a with Fin r => Fin (- r) | PInf => MInf | MInf => PInf | NaN => NaN end.
Definition set_threshold (a : string) (o : options) : outcome options :=
  let t := atof a in
  let t := if xlt (Fin 0) t then xneg t else t in
  Done (Options (block_size o) (frequency o) (freq_min o) (freq_max o) (freq_inc o) (freq_scan_verbose o) t
    (precision o) (filter_impl_verbose o) (verbose o) (use_sse o) (rtype o)).
Definition set_impl_verbose (o : options) : options :=
  Options (block_size o) (frequency o) (freq_min o) (freq_max o) (freq_inc o) (freq_scan_verbose o) (max_threshold_db o)
    (precision o) true (verbose o) (use_sse o) (rtype o).
Definition set_verbose (o : options) : options :=
  Options (block_size o) (frequency o) (freq_min o) (freq_max o) (freq_inc o) (freq_scan_verbose o) (max_threshold_db o)
    (precision o) (filter_impl_verbose o) true (use_sse o) (rtype o).
Definition set_rtype (t : resample_type) (o : options) : options :=
  Options (block_size o) (frequency o) (freq_min o) (freq_max o) (freq_inc o) (freq_scan_verbose o) (max_threshold_db o)
    (precision o) (filter_impl_verbose o) (verbose o) (use_sse o) t.

(** the chain of else if (check_arg (...)) in Options::parse, testresampler.cc:259-337, in its order *)
Inductive handler := Flag (f : options -> options) | Arg (f : string -> options -> outcome options).
Definition wants (h : handler) : bool := match h with Flag _ => false | Arg _ => true end.
Definition chain : list (string * handler) :=
  [ ("--block-size", Arg set_block_size);
    ("--precision", Arg set_precision);
    ("--precision-linear", Flag (with_precision PREC_LINEAR));
    ("--fpu", Flag no_sse);
    ("--freq-scan", Arg set_freq_scan);
    ("--freq-scan-verbose", Flag set_scan_verbose);
    ("--frequency", Arg set_frequency);
    ("--max-threshold", Arg set_threshold);
    ("--filter-impl-verbose", Flag set_impl_verbose);
    ("--verbose", Flag set_verbose);
    ("--up", Flag (set_rtype RES_UPSAMPLE));
    ("--down", Flag (set_rtype RES_DOWNSAMPLE));
    ("--subsample", Flag (set_rtype RES_SUBSAMPLE));
    ("--oversample", Flag (set_rtype RES_OVERSAMPLE)) ]%string.

Fixpoint try (l : list (string * handler)) (argc : nat) (argv : args) (i : nat) (o : options) : outcome (args * nat * options) :=
  match l with
  | [] => Done (argv, i, o)
  | (opt, h) :: l =>
      c <- check_arg argc argv i opt (wants h);
      match c with
      | None => try l argc argv i o
      | Some (argv, i, opt_arg) =>
          match h with
          | Flag f => Done (argv, i, f o)
          | Arg f => a <- str opt_arg; o <- f a o; Done (argv, i, o)
          end
      end
  end.

(** the first loop of Options::parse, testresampler.cc:249-338 *)
Fixpoint scan_args (fuel argc : nat) (argv : args) (i : nat) (o : options) : outcome (args * options) :=
  if i <? argc then
    match fuel with
    | O => Fault NoFuel
    | S fuel =>
        p <- get argv i;
        s <- str p;
        if same s "--help" || same s "-h" then Exit 0
        else
          r <- try chain argc argv i o;
          let '(argv, i, o) := r in scan_args fuel argc argv (i + 1) o
    end
  else Done (argv, o).

(** the second loop, testresampler.cc:341-350 *)
Fixpoint resort (fuel argc : nat) (argv : args) (e i : nat) : outcome (args * nat) :=
  if i <? argc then
    match fuel with
    | O => Fault NoFuel
    | S fuel =>
        p <- get argv i;
        match p with
        | None => resort fuel argc argv e (i + 1)
        | Some _ =>
            argv <- set argv e p;
            let e := e + 1 in
            argv <- (if e <=? i then set argv i None else Done argv);
            resort fuel argc argv e (i + 1)
        end
    end
  else Done (argv, e).

(** Options::parse, testresampler.cc:234-351; the result: argv, argc *)
Definition parse (argv : args) (o : options) : outcome (args * nat * options) :=
  let argc := List.length argv in
  r <- scan_args argc argc argv 1 o;
  let '(argv, o) := r in
  r <- resort argc argc argv 1 1;
  Done (fst r, snd r, o).

Inductive test_type :=
  TEST_PERFORMANCE | TEST_ACCURACY | TEST_ERROR_TABLE | TEST_ERROR_SPECTRUM | TEST_IMPULSE | TEST_FILTER_IMPL.

(** main and standalone, testresampler.cc:739-782, 887-911, up to perform_test: which test runs with which options.
    [argv]: the arguments without the name of the program *)
Inductive job := Check | Perform (t : test_type) (o : options).
Definition command (s : string) : option test_type :=
  if same s "perf" || same s "performance" then Some TEST_PERFORMANCE
  else if same s "accuracy" then Some TEST_ACCURACY
  else if same s "error-table" then Some TEST_ERROR_TABLE
  else if same s "error-spectrum" then Some TEST_ERROR_SPECTRUM
  else if same s "dirac" then Some TEST_IMPULSE
  else if same s "filter-impl" then Some TEST_FILTER_IMPL
  else None.
Definition standalone (sse_available : bool) (argv : args) : outcome job :=
  let o := Options (block_size defaults) (frequency defaults) (freq_min defaults) (freq_max defaults) (freq_inc defaults)
    (freq_scan_verbose defaults) (max_threshold_db defaults) (precision defaults) (filter_impl_verbose defaults)
    (verbose defaults) sse_available (rtype defaults) in
  r <- parse argv o;
  let '(argv, argc, o) := r in
  if argc =? 2 then
    p <- get argv 1;
    s <- str p;
    match command s with Some t => Done (Perform t o) | None => Exit 1 end
  else if argc =? 1 then Exit 0
  else Exit 1.
Definition main (sse_available : bool) (argv : list string) : outcome job :=
  match argv with
  | [s] => if same s "check" then Done Check else standalone sse_available [Some "testresampler"%string; Some s]
  | _ => standalone sse_available (Some "testresampler"%string :: map Some argv)
  end.
End Parse.
