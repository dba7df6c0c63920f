# Design

A formal model in Rocq (Coq 8.16.1) of the pandaresampler library
(`/repo/include/pandaresampler.hh`, `/repo/include/pandaresampler/pandaresampler.cc`,
`/repo/include/pandaresampler/hiir/`, `/repo/filter-design/mkiir.cc`) and proofs of the
properties in `properties.jsonl`. `MANIFEST.json` maps properties to theorems; all theorems
named there are in the files `rocq/theories/Props*.v`.

## Model

| file | contents |
|------|----------|
| `Arith.v` | record of sample operations; decimal literal -> double -> float conversion in integer arithmetic |
| `ArithR.v`, `ArithF.v` | instances: real numbers; IEEE binary32/binary64 (Flocq) |
| `Mem.v` | block memory, error outcomes (out of bounds, misaligned, null, assert), command monad, loops |
| `FirModel.v` | `Upsampler2`, `Downsampler2`, FIR kernels, tap reordering, statement by statement |
| `IirModel.v` | hiir `Upsampler2xFpu`, `Downsampler2xFpu`, `Upsampler2xSse`, `Downsampler2xSse`, `StageProcFpu`, `StageProcSseV2` |
| `Tables.v` | every coefficient table, digit for digit, generated from the source text |
| `ResamplerModel.v` | `Resampler2`: construction, `process_block`, `reset`, `delay`, `order`, `sse_enabled`, static functions |
| `AlignedModel.v` | `AlignedArray`: address arithmetic, construction, copies, destruction over a heap with malloc/free |
| `TestModel.v` | `Resampler2::test_filter_impl`: `fir_test_filter_sse`, `fir_process_one_sample<double>`, with rand() as an oracle and double as a second arithmetic (binary64 or R) |
| `AccuracyModel.v` | tests/testresampler.cc: `perform_test` for TEST_ACCURACY and all four resample types, `run_accuracy`, `check_accuracy_full`, with rand() as an oracle; values of type double are real numbers, output samples may be infinite or NaN; text output is not modelled; the loop is shared with `ErrorModel.v`; an object is not destroyed after its run |
| `ErrorModel.v` | tests/testresampler.cc: `perform_test` for TEST_ERROR_TABLE and TEST_ERROR_SPECTRUM, `window_blackman`; the printed numbers are the result; what fftw computes is a parameter, which theorems about the spectrum assume to be the discrete Fourier transform (`transforms`) |
| `MainModel.v` | tests/testresampler.cc: `perform_test` (the choice of the test), `test_filter_impl`, `run_testresampler`, `main` as a whole program with its exit status; infinite and NaN options are not modelled beyond the command line; the self test has its own sequence of results of rand(); text output is not modelled |
| `SawModel.v` | tests/testsawquality.cc: `window_blackman`, `db`, `Saturation::process`, `main`; the results of zita-resampler and fftw, `atof`, `sin` and `tanh` are parameters; the printed numbers are the result |
| `MultiModel.v` | tests/testmultidelay.cc (`Test::run`, `main` with `atoi` as an oracle) and tests/testaddr.cc; double as real numbers as in `AccuracyModel.v` |
| `RunModel.v` | tests/testresampler.cc: `perform_test` for TEST_IMPULSE and TEST_PERFORMANCE, without the measured times and the text output; the input of the performance test is a parameter |
| `ToolsModel.v` | tests/testmultiperf.cc, tests/testsimple.cc, the resampling in tests/testdownmulti.cc and tests/testdistort.cc (modes fir, iir); the samples that testdistort generates and its distortion are parameters |
| `OptModel.v` | tests/testresampler.cc: `check_arg`, `Options::parse`, `standalone`, `main` up to `perform_test` (`atoi`, `atof` as oracles, `strtok` as splitting at commas) |
| `SplitModel.v` | the functions of the hiir classes that Resampler2 does not use: band split, single samples, process_sample_neg |
| `ExampleModel.v` | class `Saturation` of the API documentation, with oversampling, precision and function as parameters |
| `DesignerModel.v` | `PolyphaseIir2Designer`, `fnc.hpp`, the design steps of `mkiir.cc` |
| `FirDesign.v` | filter-design/mkfir.sh, us_sinc.m: the formula of the coefficients over R, with Octave's ultrwin specified by its properties |

The signal code is transcribed once, over an abstract arithmetic. Theorems that need no
algebraic law hold for every arithmetic, in particular for binary32 with rounding
(bit-exactness). Theorems about exact arithmetic instantiate it with R. Theorems about
rounding, overflow and NaN instantiate it with Flocq's binary32.

Undefined behaviour is an outcome (`Err e`), so "process_block returns `Ok`" is
memory safety, alignment safety, and absence of null dereferences and assertion failures at once.

The designer is modelled over R (the code uses double): a failed assert is `DBad`, a division by
zero or root of a negative number is `DNaN`. Its rounding errors are not modelled; C54 compares
the exact results with the literals that the program printed.

## Specifications and clients

* `Spec.v`: what a stage computes, over signals (`Z -> T`) and literal tables. It does not mention
  histories, chunks, vector lanes or blocks. `SpecOk.v`, `SpecR.v` relate it to the model.
* `Client.v`: `reach` is the inductively defined set of states a client can bring a resampler into
  by construction, `process_block` calls (any buffers, addresses, sizes, memory contents in
  between) and `reset`, together with the input stream and the collected output stream. Stream
  theorems are about every reachable state.
* `Cases.v`, `Session.v`: concrete executable runs, for examples beside theorems and for refutations.
* `AlignedProof.v`: `areach`, states reachable by creating, assigning, destroying arrays and by
  foreign malloc/free calls, with any legal allocator behaviour.

## Proof files

* `Wp.v`: weakest-precondition rules; `FirKernel`, `FirUpProof`, `FirDownProof`, `IirProof`: loop
  invariants; `Stage`, `FirUpStage`, `FirDownStage`, `IirStage`, `IirSseStage`: one contract for all
  stage classes; `Cascade`, `ResamplerProof`, `ResamplerOk`: ratios 2, 4, 8.
* `Param.v`, `Twin.v`: relational parametricity of the model in the arithmetic and two-run
  (non-interference) reasoning: used for linearity, partition independence, NaN forgetting.
* `StreamFacts`, `DelayFacts`, `LinFacts`, `CallFacts`, `IirCalls`, `ConfigFacts`, `Feed`: consequences used by the properties.
* `TablesF`, `TableFacts`: the tables rounded to binary32, by exact integer computation. `LitProof`: that computation is IEEE rounding. `Impulse`: impulse responses in binary32. `BigBlock`: which elements a FIR upsampler accesses for blocks of any size.
* `FirReal`, `TrigPoly`, `FreqFir`, `FirEnergy`, `IirReal`: real analysis of the specification. `FloatComm`, `FloatSum`, `FloatFir`, `FloatErr`: binary32. `Recover`, `NanIir`: non-finite samples. `FloatFreq`: every float program has a twin in exact arithmetic with any other input.
* `IirPhase`, `IirCert`, `IirLag`, `IirFreq`, `IirDelay`, `IirSine`, `IirTones`: IIR resamplers and sinusoids, over R.
* `DesignerProof`, `DesignerPhase`, `DesignerGdly`, `DesignerTables`: the designer. `FirDesignDeriv`, `FirUnique`, `FixInt`, `FirDesignProof`, `FirCert`, `FirDesignCert`: the FIR design. `TestProof`: the self test. `AccuracyProof`, `AccuracySine`: the accuracy tests (partial and total correctness with the same rules). `ErrorProof`, `Blackman`: the error table and spectrum. `SawProof`, `SawReal`: testsawquality. `Tail`: silence after a signal. `MultiProof`, `MultiRead`, `ToneAt`, `MultiSine`: testmultidelay and testaddr. `ExampleProof`: the documented example. `SplitProof`, `SplitReal`: band split. `NegProof`, `NegReal`: process_sample_neg.

## Trusted base

* the Coq kernel. No axioms of our own. The axioms of the standard library used by each theorem
  (output of `Print Assumptions`) are listed at the end of this file,
* the transcription of the C++ code into the model. Every definition cites the lines it models,
* C++ semantics assumptions: `float` is IEEE binary32, `double` binary64, round to nearest even,
  no FMA contraction, no reassociation, no extended precision, no flush to zero
  (g++ -std=c++11 on x86-64 without -ffast-math); `unsigned int` has 32 bits; `long` 64 bits;
  asserts are active; `std::copy`, `memmove`, `std::fill`, `malloc` behave as specified;
  heap objects with alignas(16) members are 16-byte aligned.

Not modelled: `fprintf`/`printf` output (only whether a check failed), NaN payloads and
signs, allocation failure of `Resampler2` itself (it is modelled for `AlignedArray`), threads (the library has no shared mutable
state), time measurements, zita-resampler and FFTW (external libraries, their results are parameters), rounding in the designer and in Octave.

## Per property

(see MANIFEST.json for status and theorem names)

* C01-C06, C08, C09, C17: stage contracts for the FIR classes, proved by loop invariants
  over any arithmetic; then specialised to R. Block sizes are below 2^31 - 4.
* C07, C28: Flocq error bounds by induction on the accumulation. The bound of C07 is a number of units 2^-24 per mode, ratio and precision.
* C10-C13, C30, C33, C36, C43: refutations by concrete executions of the model plus induction where
  the claim is about all later times. C33 also holds for subnormal limit cycles of the non-SSE code, which are not part of the claim.
* C14-C16, C38-C41: Resampler2 level proofs from stage contracts.
* C18-C22: case analysis over configurations, with unbounded parameters left symbolic.
* C23-C27, C48-C50: real analysis of the specification; table facts by exact integer computation.
  C48: for each table two certificates (trigonometric polynomials whose squared absolute value is, up to a
  constant that dominates the rest, error -/+ (1 - gain)), checked with integers; found outside Coq, not trusted.
* C31-C37: hiir classes refine a two-chain all-pass specification; energy identity and stability over R.
* C42: arithmetic and reachability over any allocator behaviour. C43: refutation plus characterisation.
* C44: the stage contracts and the invariant of programs (Client.v: `call_ok`) allow the output to start in
  the array of the input, at or before its beginning, whenever `in_place_ok` (Spec.v) holds, so all
  theorems about reachable programs include such calls; the exception is a refutation by a concrete execution.
* C45-C47, C51-C55: real analysis of the designer; numeric facts with the Interval library; monotonicity step by step from tan to the attenuation (`PropsDesignMono.v`)
  (interval arithmetic evaluated inside Coq on the standard library's 63-bit integers, hence the Uint63 axioms).
* C56, C57: a sinusoid through the two chains of all-pass sections comes out with lags whose mean is the delay
  and whose difference is the error (image or alias). The difference is bounded over the whole band by one
  integer certificate per table, as for C48; the derivative of the mean lag is the group delay. The effect of earlier
  input fades out by the weighted bounds used for C25. The 144 dB refutation is one sinusoid, evaluated with Interval.
* C58: forward error analysis of each all-pass section (an error of one step is damped by the factor c per step), along both
  chains and all stages. The section with coefficient 1 of the vector code has no damping, hence the growing term.
  C59 shows that the growth is real: the input is constructed by induction such that in each step the same sum is
  a tie that is rounded up (`FloatDrift.v`).
* C60: loop invariants over any pair of arithmetics; the failing random sequence is constant, only the decision for order 62 is computed.
* C61: a float program is compared with its twin in exact arithmetic whose input is the sinusoid itself (C07, C58 for the rounding,
  C24/C25 for the error of the input, C48/C56 for the filter).
* C62: the calls made by the example meet the obligations of `call_ok`, so its programs are programs of `Client.v`; the rest follows from C07, C16, C27, C40.
* C63: unfolding of the loop of process_block; for ratios above 8 the object is compared with the one of ratio 8.
* C64: loop invariant of the split functions as for process_block; the real analysis of C55-C57 for both bands, the high band through the mirrored input. The functions are modelled for objects constructed with set_coefs.
* C65: the transcription of process_sample_neg is process_sample_pos in an arithmetic with + and - exchanged, so the invariant carries over; mirror images by induction over the stream.
* C66: a FIR stage maps a list of sinusoids to a list of sinusoids (signal and image); a round trip is a stage around the round trip of the
  inner stages, and the images made by the upsampler are attenuated again by the downsampler. One more certificate per table bounds the gain at all frequencies.
* C67: as C61, with the twin of C66; for round trips the twins are composed and the noise of the first enters the second as input error. The dB tables are interval computations.
* C68: loop invariant of the test program: the blocks processed so far are one stream, of which the tail is the test tone; then C66 and C67 for this stream. The limits of check_accuracy_full are compared by interval computations. The limits for single precision that can be guaranteed are lower than some of those that check_accuracy_full uses.
* C69: all-pass sections commute, so a stage up and the same stage down again is the chain of all its sections; the outer stages of a round trip map lists of sinusoids to lists of sinusoids, and image and alias come back with the square of the stopband error.
* C70: Parseval's identity for finite sums (`FirEnergy.v`) turns the bound of the gain at every frequency (the certificates of C66) into a bound of the energy of any signal.
* C71: as C61 for IIR: the float program is compared with its twin in exact arithmetic whose input is the sum itself (C58), then C69; for round trips the noise of the first twin is the input error of the second.
* C72: `Test::run` is run like C68's test program (frame conditions for the arrays on the stack), so each report is a function of the stream of a reachable resampler; then C66 and C67, sharpened for the one frequency 1 kHz (`ToneAt.v`). The read behind the array is C36 for this program. Wrong arguments: the model of `main` step by step, with C63 and C18 for objects without filters. A negative ratio: the run is that with ratio 8 up to the comparison, by C63. The large error is C49 with an interval computation of the gain at 1 kHz.
* C73: the same with vectors of the exact size, by induction over the loops; `far_n` only says that different arrays do not overlap.
* C74: FIR: outputs depend on a window of the input (by induction over the stages), so the stream is replaced by one that is 0 outside the interval and C07 applies. IIR: a non-finite sample makes the state of an all-pass section non-finite and that is an invariant, which needs only that the coefficients are positive; the overflow is one computation per coefficient.
* C75: the integer conversion of literals (Arith.v) is proved equal to Flocq's rounding for all decimals (`LitProof.v`), so it is not part of the trusted base; one computation over the tables shows that double rounding is harmless. Impulse: at most one summand is not zero, so every order of additions is exact.
* C76: memory safety of the upsampler without its values: an invariant says that everything mapped stays mapped and that only the history and positions below 2^32 + 2 (N + 2) are written; the loops over i do not wrap below 2^32 - 6, 2 * i does.
* C77: `check_arg` and both loops of `Options::parse` are run on an array of pointers (`OptModel.v`); the specification is an inductive relation on lists of arguments (`OptProof.v`), shown to be a function and to be what the loops compute, by induction over the arguments. The settings are an invariant of that relation. The accuracy test is C68's model with the block size of the command line; the array sizes are computed as unsigned int.
* C78: the window is specified by its properties (`FirDesign.v`), because Octave's ultrwin is not part of the project. Existence by the intermediate value theorem. Uniqueness: all positive critical points of the polynomial are enclosed by sign changes and counted against the degree, so the smallest one is known and the polynomial is injective above 1; coefficients of a cosine sum are unique (`FirUnique.v`). The numbers come from interval arithmetic with 448 bits on big integers (`FixInt.v`, `FirDesignProof.v`), for enclosures of the critical point and of the stretching factor in `FirCert.v` that need not be trusted. What Octave really computes (rounding, its stopping criteria) is not modelled.
* C36: the call is compared with the same call with the two floats present: the loop over the chunks behaves identically until the last chunk, whose first stage reads behind it (`OverRead.v`).
* C79: as C72, for the loops and arrays of these programs (`ToolsProof.v`, `ToolsArrays.v`); the sine of testsimple as in C67, for 440 Hz (`ToolsSine.v`).
* C80: as C72 for the two tests (`RunProof.v`), with the settings that C77 gives for the command line. The length of the responses: windows of zeros give zero in any order of additions, and for subsampling the last product of two taps is the only term that is not zero and does not underflow (`RunImpulse.v`).
* C81: the loop invariant of C68, with a list of blocks of lines as the collected value (`ErrorProof.v`). The spectrum: sums of sines over whole periods by telescoping, the window as a sum of three cosines, and |sum of a_n e^(i t_n)| <= sum of |a_n| (`Blackman.v`).
* C82: loop invariants for `main` of testsawquality with the contract of `process_block` (`SawProof.v`); in exact arithmetic the lines by the sums of `Blackman.v`, in single precision the sum of at most 2^24 partials is bounded and the bounds of C62 apply (`SawReal.v`).
* C83: per section, an invariant for the state x1 - c y1 of the recursion with rounding: a part that shrinks by nearly c in each step and a rest of some multiples of 2^-150; composed along chains, stages and cascades with the time after which the first part is gone (`Tail.v`); the alternating rest by computation up to the first repeated state, then periodicity. The lasting hum of the vector code (`Hum.v`): the input of C59 lets the state of the section with coefficient 1 drift to 300000 units of 2^-24 beside the output of the section before; while that output fades each step loses at most 10 units; as soon as it is below half a unit of the state, rounding gives exactly the negated state, so that an induction keeps its size. FIR: the windows of C74 with C40.
* C84: composition of C77 (command line), C68, C80, C81, C60 (the tests) along `program`, by the rule for sequences of computations that either end properly or run out of fuel; the false alarm from C60.
* C85: a section with a coefficient other than 0 can be undone sample by sample, hence chains and one phase of each stage; a round trip is linear, causal and time invariant, and the first output sample for a 1 is positive by computation with numbers m/2^e (`IirTripInj.v`), for FIR it is the product of the outermost coefficients, none of which is 0 (`FirTripInj.v`); the signals which single precision loses by computation; the energy that a chain holds back is bounded by the last samples of the inputs and outputs of its sections, which fade geometrically; the lost signal of a downsampler has one phase filtered with the sections of the other one, with opposite signs, which all-pass sections turn into the same signal because they commute; for FIR, C03 for upsampling, and for downsampling the odd samples are chosen so that they cancel the filtered even samples.

## Axioms per theorem

Real numbers and classical logic of the standard library: `ClassicalDedekindReals.sig_forall_dec`,
`ClassicalDedekindReals.sig_not_dec`, `Classical_Prop.classic`,
`FunctionalExtensionality.functional_extensionality_dep`. "Uint63/PrimInt63" stands for the primitive
63-bit integers `PrimInt63.*` and their specification `Uint63.*_spec`, `Uint63.of_to_Z`, `Uint63.eqb_*`.

* **none (closed under the global context)**: C06_reordering_stays_inside, C19_find_precision, C19_monotone, C20_precision_name, C20_names, C42_alignment, C42_no_false_sharing, C42_no_sharing_with_others, C42_construct, C42_construct_from, C42_destruct, C42_assign, C42_malloc_failure, C42_overflow_refuted, C43_copy, C60_safe, C60_decides, C63_above_8_small_blocks, C63_above_8_large_blocks, C63_above_8_reset, C64_split, C64_single, C65_sections
* **`ClassicalDedekindReals.sig_forall_dec`**: C45_ipowp_negative
* **`ClassicalDedekindReals.sig_forall_dec`, `ClassicalDedekindReals.sig_not_dec`, `Classical_Prop.classic`, `FunctionalExtensionality.functional_extensionality_dep`**: C01_fir_upsampling, C02_fir_downsampling, C03_passthrough, C04_partition_independent, C05_partition_bit_exact_refuted, C05_alignment_bit_exact_refuted, C05_downsampling_bit_exact_refuted, C05_sse_same_in_exact_arithmetic, C07_ratio_2_accuracy, C07_ratio_2_agree, C07_accuracy, C07_agree, C08_fir_memory_safe, C09_footprint, C09_output_defined, C10_empty_block, C11_short_block_aborts, C11_empty_up_processes_a_sample, C11_short_down_processes_two_samples, C11_empty_up_out_of_bounds, C11_short_down_out_of_bounds, C11_sse_does_nothing, C12_odd_block_rejected, C13_rejected_block_has_no_effect_refuted, C14_upsampling_composes, C14_upsampling_composes_exact, C14_upsampling_composes_vector, C15_downsampling_composes, C15_downsampling_composes_exact, C15_downsampling_composes_vector, C16_copies, C16_in_place, C16_delay, C16_reset, C17_sample_counts, C18_constructible, C18_unusable, C21_order_and_sse, C21_ratio_1, C22_fir_delay_ratio_2, C22_delay_nonnegative, C22_iir_multiple_of_half_refuted, C23_ramp, C23_ramp_ratio_2, C24_linear_phase, C24_impulse_response_symmetric, C25_fir_dc_gain, C25_iir_settles, C25_iir_limit, C26_linear, C26_time_invariant, C27_bounded, C28_no_overflow, C28_intermediates, C29_upsampler_forgets, C29_downsampler_forgets, C30_sse_window_refuted, C31_iir_upsampling, C31_iir_downsampling, C32_sse_iir_same_exact, C32_sse_iir_bit_exact, C32_sse_iir_bit_exact_F32, C33_up, C33_down, C34_bounded, C34_decay, C35_upsampler_ratio_2, C35_energy, C36_reads_behind_the_input, C36_values_behind_do_not_matter, C36_reads_behind_the_input_all_ratios, C37_iir_memory_safe, C38_reset_like_new, C38_output_determined_by_calls, C39_instances_independent, C40_silence, C41_causality, C44_in_place, C44_same_result, C44_fir_in_place_refuted, C46_group_delay, C48_linear_interpolation, C49_sine_upsampling, C49_sine_downsampling, C50_round_trip, C51_rejected, C55_upper_frequencies, C55_fail_conv, C58_accuracy, C58_sse_accuracy, C58_agree, C58_no_overflow, C59_sse_error_grows, C59_use_sse_has_no_effect_refuted, C60_no_false_alarm_refuted, C61_correctly_rounded_input, C62_construct, C62_process, C62_reset, C62_output, C62_bit_exact, C62_accuracy, C62_bounded, C62_silence, C62_documented_class, C63_below_8, C63_above_8_construct, C63_above_8_delay, C63_gap, C64_low_bit_exact, C64_low_sse_refuted, C64_sine, C64_overlap_refuted, C65_sine, C68_no_error, C68_ends, C68_only_upwards, C69_energy, C69_all_pass, C70_energy, C70_difference, C70_round_trip, C70_nothing_lost, C72_default_run, C72_run_with_arguments, C72_vector_iir_reads_behind, C72_few_arguments, C72_wrong_words, C72_no_filter, C72_negative_ratio, C73_all_addresses, C74_fir_recovers, C74_iir_never_recovers, C74_iir_overflow, C75_conversion, C75_nearest, C75_impulse_up, C75_impulse_down, C76_large_block, C76_large_block_refuted, C77_accuracy, C77_huge_block, C79_performance_test, C79_performance_test_reads_behind, C79_performance_test_no_filter, C79_simple, C79_down_frequencies, C79_distort_without_oversampling, C79_distort, C79_usage, C79_wrong_words, C80_performance, C80_performance_overflow, C80_impulse, C80_releases, C80_impulse_values, C80_enough_space, C81_table, C81_enough_values, C81_sine, C82_usage, C82_overflow, C82_panda, C82_zita, C82_exact, C82_exact_overflow, C82_sine, C82_float_overflow, C82_float, C82_float_frequencies, C83_never_silent, C83_fir_silence, C84_no_error, C84_check_refuted, C85_upsampling_keeps_all, C85_oversampling_keeps_all, C85_energy_returns, C85_downsampling_loses, C85_fir_upsampling_keeps, C85_fir_downsampling_loses, C85_single_precision_refuted
* **`ClassicalDedekindReals.sig_forall_dec`, `ClassicalDedekindReals.sig_not_dec`, `Classical_Prop.classic`, `FunctionalExtensionality.functional_extensionality_dep`, `Uint63/PrimInt63`**: C46_literals, C46_documented, C47_not_the_phase_delay, C48_upsampling_accuracy, C48_downsampling_accuracy, C48_alias_rejection, C48_test_thresholds, C51_decreasing, C51_transition, C52_wider_band, C52_monotone, C52_smallest, C52_total, C52_attenuation, C52_positive_refuted, C53_coefficients, C53_one_coefficient, C54_tables, C55_no_abort, C55_tolerance_refuted, C56_upsampling_accuracy, C56_downsampling_accuracy, C56_alias_rejection, C56_nominal, C56_almost_nominal_144, C56_nominal_144_refuted, C57_upsampling_delay, C57_downsampling_delay, C57_group_delay, C61_fir_upsampling, C61_fir_downsampling, C61_fir_alias_rejection, C61_fir_upsampling_snr, C61_fir_downsampling_snr, C61_iir_upsampling, C61_iir_downsampling, C61_iir_alias_rejection, C64_bands, C66_upsampling, C66_downsampling, C66_oversampling, C66_subsampling, C66_test_thresholds, C67_upsampling, C67_downsampling, C67_oversampling, C67_subsampling, C67_oversampling_snr, C67_subsampling_snr, C68_exact, C68_single_precision, C68_check_accuracy_full, C69_upsampling, C69_downsampling, C69_oversampling, C69_subsampling, C69_oversampling_delay, C71_upsampling, C71_downsampling, C71_oversampling, C71_subsampling, C71_oversampling_delay, C72_exact_arithmetic, C72_single_precision, C72_large_error_not_reported, C78_design, C78_run_time, C79_simple_sine, C81_table_exact, C81_table_single_precision, C81_spectrum_exact, C81_spectrum_single_precision, C83_decay, C83_vector_decay_refuted, C84_ends, C84_check_exact, C84_accuracy_single_precision
* **`ClassicalDedekindReals.sig_forall_dec`, `ClassicalDedekindReals.sig_not_dec`, `FunctionalExtensionality.functional_extensionality_dep`**: C72_only_downwards
* **`ClassicalDedekindReals.sig_forall_dec`, `FunctionalExtensionality.functional_extensionality_dep`**: C06_vector_kernel, C27_tap_sums, C35_chain_lossless, C45_ipowp, C56_transient, C60_exact, C64_low_exact, C64_sum_difference, C64_energy, C64_mirror, C65_mirror, C69_transient, C77_parse, C77_main, C77_settings, C78_all
