{"id": "C01", "title": "FIR 2x upsampling is zero-stuffing plus half-band convolution", "statement": "For a ratio 2 FIR upsampler, however the input signal x is cut into blocks, the concatenation of the output blocks is, in exact arithmetic, y(2m) = sum_i t(i) x(m-N+1+i) and y(2m+1) = x(m-N/2+1), where N is order(), t is the interpolation table of the chosen precision scaled by 2, and x is zero before its start.", "quantifier": "every precision, SSE on or off, every sequence of input blocks of any sizes (each < 2^31 - 4 samples), every buffer alignment, every position in the stream", "why_tests_cant": "A test can only try some signals, block sizes and alignments; the code has separate paths for the history region, unaligned head, vector body and scalar tail whose interplay depends on all of them.", "anchors": ["include/pandaresampler/pandaresampler.cc: Upsampler2::process_block, process_block_aligned, process_block_unaligned, process_4samples_aligned, process_sample_unaligned", "include/pandaresampler/pandaresampler.cc: fir_process_one_sample, fir_process_4samples_sse, fir_compute_sse_taps"]}
{"id": "C02", "title": "FIR 2x downsampling is half-band filtering plus decimation", "statement": "For a ratio 2 FIR downsampler fed with blocks of even length, the concatenated output is, in exact arithmetic, y(n) = sum_i t(i) x(2(n-N+1+i)) + 0.5 x(2(n-N/2)+1), i.e. the even-phase half-band filter output kept at every second sample, with x zero before its start.", "quantifier": "every precision, SSE on or off, every sequence of even-sized blocks, every alignment, every output index", "why_tests_cant": "Correctness depends on the block sizes relative to the filter order and to the internal 2048 sample chunks; there are unboundedly many partitions.", "anchors": ["include/pandaresampler/pandaresampler.cc: Downsampler2::process_block, process_block_aligned, process_block_unaligned, deinterleave2", "include/pandaresampler/pandaresampler.cc: fir_process_one_sample, fir_process_4samples_sse, fir_compute_sse_taps"]}
{"id": "C03", "title": "FIR upsampling passes the input samples through unchanged", "statement": "For a FIR upsampler of ratio r in {2,4,8}, output[delay() + r*k] is bit for bit input[k] (NaN payloads aside) for every k for which that output exists: the interpolator never alters original samples, with SSE or without, whatever the block sizes.", "quantifier": "every ratio, precision, SSE setting, block partition, every input value including infinities, subnormals and NaN", "why_tests_cant": "Bit-exactness over all float values and all block partitions cannot be enumerated.", "anchors": ["include/pandaresampler/pandaresampler.cc: Upsampler2::process_block, process_block_aligned, process_block_unaligned, process_4samples_aligned, process_sample_unaligned", "include/pandaresampler/pandaresampler.cc: fir_process_one_sample, fir_process_4samples_sse, fir_compute_sse_taps", "include/pandaresampler.hh: Resampler2::process_block", "include/pandaresampler.hh: Resampler2::delay"]}
{"id": "C04", "title": "Without SSE the FIR result is bit-exactly independent of the block partition", "statement": "A FIR resampler not using SSE produces bit-identical output for the same input signal no matter how the caller divides the signal into process_block calls (for downsampling: into blocks whose sizes are multiples of the ratio).", "quantifier": "every ratio, mode, precision, every two partitions of every input signal", "why_tests_cant": "Pairs of partitions of arbitrary signals are unbounded, and equality is claimed under rounding, not up to tolerance.", "anchors": ["include/pandaresampler/pandaresampler.cc: Upsampler2::process_block, process_block_aligned, process_block_unaligned, process_4samples_aligned, process_sample_unaligned", "include/pandaresampler/pandaresampler.cc: fir_process_one_sample, fir_process_4samples_sse, fir_compute_sse_taps", "include/pandaresampler/pandaresampler.cc: Downsampler2::process_block, process_block_aligned, process_block_unaligned, deinterleave2", "include/pandaresampler/pandaresampler.cc: fir_process_one_sample, fir_process_4samples_sse, fir_compute_sse_taps", "include/pandaresampler.hh: Resampler2::process_block"]}
{"id": "C05", "title": "With SSE the FIR block partition and alignment influence rounding only", "statement": "A FIR resampler using SSE computes, in exact arithmetic, the same output as the non-SSE one for every partition and alignment.  In single precision the outputs for two partitions need not be bit-identical.", "quantifier": "every ratio, mode, precision, partition and alignment; existence of a differing pair for the second sentence", "why_tests_cant": "Whether a sample takes the vector or the scalar path depends on address and block size; tests see a few.", "anchors": ["include/pandaresampler/pandaresampler.cc: Upsampler2::process_block, process_block_aligned, process_block_unaligned, process_4samples_aligned, process_sample_unaligned", "include/pandaresampler/pandaresampler.cc: fir_process_one_sample, fir_process_4samples_sse, fir_compute_sse_taps", "include/pandaresampler/pandaresampler.cc: Downsampler2::process_block, process_block_aligned, process_block_unaligned, deinterleave2", "include/pandaresampler/pandaresampler.cc: fir_process_one_sample, fir_process_4samples_sse, fir_compute_sse_taps"]}
{"id": "C06", "title": "Four-sample vector kernel equals the scalar kernel for every filter", "statement": "For every filter order (including 0) and every tap and input values, the four results of the vector kernel applied to the reordered taps are, in exact arithmetic, the scalar convolutions at the four consecutive positions, and the reordering never writes outside its array.", "quantifier": "every order >= 0, every taps, every input window, every aligned address", "why_tests_cant": "test_filter_impl tries one random input for 64 orders; a wrong entry multiplied by a small value would stay below its tolerance.", "anchors": ["include/pandaresampler/pandaresampler.cc: fir_compute_sse_taps, fir_process_4samples_sse, fir_process_one_sample, fir_test_filter_sse"]}
{"id": "C07", "title": "Vector and scalar FIR results agree up to a rounding bound", "statement": "In IEEE single precision, as long as no overflow occurs, each output computed by the vector path and the scalar path for the same input differ by at most an explicit multiple of the unit roundoff times sum |tap*input| (plus an underflow term).", "quantifier": "every order, all finite taps and inputs without overflow", "why_tests_cant": "Worst-case rounding cannot be established by sampling inputs.", "anchors": ["include/pandaresampler/pandaresampler.cc: fir_process_4samples_sse, fir_process_one_sample"]}
{"id": "C08", "title": "FIR processing is memory safe and vector accesses are aligned", "statement": "process_block on a properly constructed FIR resampler never reads outside the caller's n input samples or its own arrays, never writes outside the output samples or its own arrays, and performs 16-byte vector accesses only at aligned addresses, whatever the alignment of the caller's buffers.", "quantifier": "every ratio, mode, precision, SSE setting, buffer alignment, every n with n < 2^31 - 4 (multiples of ratio for downsampling), any call history", "why_tests_cant": "Out of bounds reads of a few floats rarely crash; every residue of size and alignment matters.", "anchors": ["include/pandaresampler/pandaresampler.cc: Upsampler2::process_block, process_block_aligned, process_block_unaligned, process_4samples_aligned, process_sample_unaligned", "include/pandaresampler/pandaresampler.cc: fir_process_one_sample, fir_process_4samples_sse, fir_compute_sse_taps", "include/pandaresampler/pandaresampler.cc: Downsampler2::process_block, process_block_aligned, process_block_unaligned, deinterleave2", "include/pandaresampler/pandaresampler.cc: fir_process_one_sample, fir_process_4samples_sse, fir_compute_sse_taps", "include/pandaresampler.hh: Resampler2::process_block"]}
{"id": "C09", "title": "process_block writes exactly its output samples and leaves everything else of the caller untouched", "statement": "A call changes no caller memory other than the n*ratio (or n/ratio) output samples, in particular not the input, and every one of those output samples is defined by the call, independent of what the output buffer or uninitialised stack memory contained.", "quantifier": "all configurations, block sizes and initial memory contents", "why_tests_cant": "Absence of a stray write or of a dependency on stale memory cannot be observed by examples.", "anchors": ["include/pandaresampler/pandaresampler.cc: Upsampler2::process_block, process_block_aligned, process_block_unaligned, process_4samples_aligned, process_sample_unaligned", "include/pandaresampler/pandaresampler.cc: fir_process_one_sample, fir_process_4samples_sse, fir_compute_sse_taps", "include/pandaresampler/pandaresampler.cc: Downsampler2::process_block, process_block_aligned, process_block_unaligned, deinterleave2", "include/pandaresampler/pandaresampler.cc: fir_process_one_sample, fir_process_4samples_sse, fir_compute_sse_taps", "include/pandaresampler.hh: Resampler2::process_block"]}
{"id": "C10", "title": "Empty blocks have no effect", "statement": "process_block with n = 0 returns normally and does not change the following output of a FIR resampler of any ratio, nor of a ratio 4 or 8 IIR resampler.", "quantifier": "all configurations and all histories", "why_tests_cant": "State must be preserved for all histories.", "anchors": ["include/pandaresampler/pandaresampler.cc: Upsampler2::process_block, process_block_aligned, process_block_unaligned, process_4samples_aligned, process_sample_unaligned", "include/pandaresampler/pandaresampler.cc: fir_process_one_sample, fir_process_4samples_sse, fir_compute_sse_taps", "include/pandaresampler/pandaresampler.cc: Downsampler2::process_block, process_block_aligned, process_block_unaligned, deinterleave2", "include/pandaresampler/pandaresampler.cc: fir_process_one_sample, fir_process_4samples_sse, fir_compute_sse_taps", "include/pandaresampler.hh: Resampler2::process_block", "include/pandaresampler/hiir/Upsampler2xFpuTpl.hpp: process_block"]}
{"id": "C11", "title": "Empty or one-sample blocks break the non-SSE IIR ratio 2 resampler", "statement": "With asserts disabled, an IIR non-SSE ratio 2 upsampler given an empty block (e.g. null size buffers), or a downsampler given 0 or 1 samples, accesses memory outside the caller's buffers; with asserts enabled it aborts.  The SSE variant does neither when asserts are disabled.", "quantifier": "every precision; every buffer", "why_tests_cant": "The do-while loop reads before testing; a unit test that passes n = 0 with a non-empty allocation would pass silently.", "anchors": ["include/pandaresampler/hiir/Upsampler2xFpuTpl.hpp: process_block", "include/pandaresampler/hiir/Downsampler2xFpuTpl.hpp: process_block", "include/pandaresampler/pandaresampler.cc: IIRDownsampler2::process_block"]}
{"id": "C12", "title": "Odd-sized blocks are rejected by the ratio 2 FIR downsampler without side effects", "statement": "When the ratio 2 FIR downsampler is given an odd number of samples it reports the failed check and changes neither its state nor any caller memory: subsequent output is as if the call had not happened.", "quantifier": "every precision, every odd n, every history", "why_tests_cant": "Needs all histories and a proof of no state change.", "anchors": ["include/pandaresampler/pandaresampler.cc: Downsampler2::process_block"]}
{"id": "C13", "title": "Ratio 4 and 8 downsampling silently loses samples when the block size is not a multiple of the ratio", "statement": "For FIR downsampling by 4, feeding one block of 2 samples discards data in a way that cannot be repaired: the later output differs from that of any resampler that either saw or did not see the block. (Refutation of the claim that blocks that are not multiples of the ratio are rejected without side effects like for ratio 2.)", "quantifier": "existence of a stream; the claim refuted ranges over all streams", "why_tests_cant": "It is a statement about all ways the state could be consistent.", "anchors": ["include/pandaresampler.hh: Resampler2::process_block", "include/pandaresampler/pandaresampler.cc: Downsampler2::process_block"]}
{"id": "C14", "title": "Ratio 4 and 8 upsampling is the composition of the 2x stages", "statement": "Upsampling by 4 (8) produces exactly the stream obtained by feeding the whole input through the 2x stage for ratio 2, its output through the stage for ratio 4 (and that through the stage for ratio 8), although it is computed in chunks of at most 1024 samples through fixed temporaries; chunking is not observable.", "quantifier": "every filter type, precision, SSE setting, arithmetic, block partition", "why_tests_cant": "Chunk boundaries fall at different stream positions for different partitions.", "anchors": ["include/pandaresampler.hh: Resampler2::process_block"]}
{"id": "C15", "title": "Ratio 4 and 8 downsampling is the composition of the 2x stages", "statement": "Downsampling by 4 (8) with block sizes that are multiples of the ratio produces exactly the stream obtained by feeding the whole input through the stages for ratio 8, 4 and 2 in turn; chunking is not observable.", "quantifier": "every filter type, precision, SSE setting, arithmetic, block partition", "why_tests_cant": "As for C14.", "anchors": ["include/pandaresampler.hh: Resampler2::process_block"]}
{"id": "C16", "title": "Ratio 1 copies", "statement": "A ratio 1 resampler of any mode, filter and precision copies input to output exactly, including when input and output are the same buffer, has delay() 0 and reset() does nothing.", "quantifier": "every mode, filter, precision, block and float value", "why_tests_cant": "All block sizes and values.", "anchors": ["include/pandaresampler.hh: Resampler2::process_block", "include/pandaresampler.hh: Resampler2::delay, Resampler2::reset"]}
{"id": "C17", "title": "Number of output samples", "statement": "Over any sequence of calls, an upsampler of ratio r has produced exactly r times as many samples as it was given, and a downsampler 1/r times as many (block sizes multiples of r).", "quantifier": "all configurations and call sequences", "why_tests_cant": "All call sequences.", "anchors": ["include/pandaresampler/pandaresampler.cc: Upsampler2::process_block, process_block_aligned, process_block_unaligned, process_4samples_aligned, process_sample_unaligned", "include/pandaresampler/pandaresampler.cc: fir_process_one_sample, fir_process_4samples_sse, fir_compute_sse_taps", "include/pandaresampler/pandaresampler.cc: Downsampler2::process_block, process_block_aligned, process_block_unaligned, deinterleave2", "include/pandaresampler/pandaresampler.cc: fir_process_one_sample, fir_process_4samples_sse, fir_compute_sse_taps", "include/pandaresampler.hh: Resampler2::process_block"]}
{"id": "C18", "title": "Which configurations construct a usable resampler", "statement": "Construction passes all internal checks and yields stages for every stage up to the ratio exactly when ratio is 1, 2, 4 or 8, and (for ratio > 1) the precision is one of the six enum values and not PREC_LINEAR with FILTER_IIR.  In the other cases the object is still created, and process_block on a non-empty block with FILTER_IIR and PREC_LINEAR dereferences a null pointer.", "quantifier": "every mode, ratio (any unsigned), precision value (any integer), SSE flag, filter and platform", "why_tests_cant": "The ratio and precision ranges are unbounded and tests use the valid ones.", "anchors": ["include/pandaresampler/pandaresampler.cc: Resampler2::Resampler2, init_stage, create_impl, create_impl_iir, create_impl_iir_with_coeffs", "include/pandaresampler.hh: create_impl_with_coeffs"]}
{"id": "C19", "title": "find_precision_for_bits returns the smallest sufficient precision", "statement": "For every bits value, the returned precision p is one of the enum values; if bits <= 24 then p >= bits and no smaller enum value is >= bits (so it is the cheapest sufficient one); for larger bits it is the best available. The function is monotone.", "quantifier": "every unsigned bits", "why_tests_cant": "2^32 inputs; monotonicity over pairs.", "anchors": ["include/pandaresampler/pandaresampler.cc: Resampler2::find_precision_for_bits"]}
{"id": "C20", "title": "precision_name distinguishes exactly the supported precisions", "statement": "precision_name returns the documented names, pairwise different, for the six precisions, and the fallback name for every other value.", "quantifier": "every integer value", "why_tests_cant": "Unbounded domain.", "anchors": ["include/pandaresampler/pandaresampler.cc: Resampler2::precision_name"]}
{"id": "C21", "title": "order() and sse_enabled()", "statement": "For a valid configuration of ratio > 1, order() is the number of coefficients of the 2x stage (52,42,32,24,16,2 for FIR; 9,8,6,5,3 for IIR), and sse_enabled() is true exactly if the platform offers it for the filter type and it was requested (FIR: SSE or NEON; IIR: SSE only). For ratio 1 both dereference a null pointer.", "quantifier": "every valid configuration and platform", "why_tests_cant": "Tests run on one platform.", "anchors": ["include/pandaresampler.hh: Resampler2::order, Resampler2::sse_enabled", "include/pandaresampler/pandaresampler.cc: init_stage"]}
{"id": "C22", "title": "delay() is non-negative and, for FIR, a multiple of one half", "statement": "delay() is finite and >= 0 for every valid configuration; for FIR with ratio 2 it is a multiple of 0.5, and an integer for upsampling. The documented multiple-of-0.5 guarantee is false for IIR filters.", "quantifier": "every valid configuration", "why_tests_cant": "It is a statement over all configurations; the IIR part refutes documentation.", "anchors": ["include/pandaresampler.hh: Resampler2::delay", "include/pandaresampler/pandaresampler.cc: Upsampler2::delay, Downsampler2::delay, IIRUpsampler2::delay, IIRDownsampler2::delay"]}
{"id": "C23", "title": "FIR delay() is the exact delay: ramps are reproduced at the advertised position", "statement": "Feed any affine signal x(k) = a + b*k to a FIR resampler of any ratio, mode and precision. Once settled, in exact arithmetic, the output at position m equals g*(a + b*p), with g the DC gain and p the input position that delay() promises for output index m: exactly for ratio 2, up to an explicit relative bound for ratios 4 and 8 (where the stages' gains differ slightly between the two phases).", "quantifier": "all a, b, output indices past settling, ratios, modes, precisions", "why_tests_cant": "Fractional delays can only be tested approximately; the statement is exact for all signals of the family.", "anchors": ["include/pandaresampler.hh: Resampler2::delay", "include/pandaresampler/pandaresampler.cc: coefficient tables, Upsampler2, Downsampler2"]}
{"id": "C24", "title": "FIR impulse response is symmetric around delay()", "statement": "The overall response of the FIR resamplers is linear phase: the output for an input impulse is symmetric around the position given by delay().", "quantifier": "every ratio, mode and precision and every position of the impulse", "why_tests_cant": "All positions relative to block borders.", "anchors": ["include/pandaresampler/pandaresampler.cc: coefficient tables"]}
{"id": "C25", "title": "DC gain", "statement": "A constant input c gives, after settling, outputs within an explicit small relative tolerance of c for each FIR precision and ratio in exact arithmetic, and, for IIR filters, outputs that converge to exactly c.", "quantifier": "every c, every precision, ratio and mode", "why_tests_cant": "Convergence is a statement about infinite streams.", "anchors": ["include/pandaresampler/pandaresampler.cc: coefficient tables", "include/pandaresampler/hiir/StageProcFpu.hpp"]}
{"id": "C26", "title": "Linearity and time invariance", "statement": "In exact arithmetic the resampler output for a*x + b*z is a times the output for x plus b times the output for z, and delaying the input by k samples (downsampling: k a multiple of the ratio) delays the output by the corresponding number of samples, for every filter type.", "quantifier": "all signals, scalars, delays, partitions", "why_tests_cant": "Unbounded quantification over signals.", "anchors": ["include/pandaresampler/pandaresampler.cc: Upsampler2::process_block, process_block_aligned, process_block_unaligned, process_4samples_aligned, process_sample_unaligned", "include/pandaresampler/pandaresampler.cc: fir_process_one_sample, fir_process_4samples_sse, fir_compute_sse_taps", "include/pandaresampler/pandaresampler.cc: Downsampler2::process_block, process_block_aligned, process_block_unaligned, deinterleave2", "include/pandaresampler/pandaresampler.cc: fir_process_one_sample, fir_process_4samples_sse, fir_compute_sse_taps", "include/pandaresampler/hiir/StageProcFpu.hpp"]}
{"id": "C27", "title": "FIR output is bounded by the tap sum", "statement": "In exact arithmetic |output| <= K * max|input| with K = sum |taps| for each stage, and explicit numeric K below 3.3 for every table; cascades multiply.", "quantifier": "all bounded inputs", "why_tests_cant": "Worst-case input must be constructed; bound holds for all signals.", "anchors": ["include/pandaresampler/pandaresampler.cc: coefficient tables"]}
{"id": "C28", "title": "Single-precision FIR processing never overflows on bounded input", "statement": "If all inputs are finite with |x| <= 2^109, every output of a FIR resampler stage computed in single precision is finite (no infinity or NaN arises in any intermediate), in the scalar and the vector path.", "quantifier": "every stage table, every input stream bounded by 2^109", "why_tests_cant": "Rounding and accumulation over all inputs.", "anchors": ["include/pandaresampler/pandaresampler.cc: fir_process_one_sample, fir_process_4samples_sse"]}
{"id": "C29", "title": "Non-SSE FIR forgets NaN and infinities", "statement": "In the non-SSE FIR ratio 2 resamplers a non-finite or arbitrary input sample influences only the outputs whose window contains it; after order() further samples (2*order() for downsampling) the outputs are bit-identical to those of a stream without it.", "quantifier": "every stream pair differing in a finite prefix", "why_tests_cant": "All values and positions.", "anchors": ["include/pandaresampler/pandaresampler.cc: Upsampler2::process_block, process_block_aligned, process_block_unaligned, process_4samples_aligned, process_sample_unaligned", "include/pandaresampler/pandaresampler.cc: fir_process_one_sample, fir_process_4samples_sse, fir_compute_sse_taps", "include/pandaresampler/pandaresampler.cc: Downsampler2::process_block, process_block_aligned, process_block_unaligned, deinterleave2", "include/pandaresampler/pandaresampler.cc: fir_process_one_sample, fir_process_4samples_sse, fir_compute_sse_taps"]}
{"id": "C30", "title": "SSE FIR: a non-finite sample also affects outputs outside its window", "statement": "With SSE, an infinite input sample can turn outputs into NaN whose mathematical window does not contain it, even outputs that precede it in time, depending on block size and alignment. (Refutes the SSE counterpart of C29 with the same constant.)", "quantifier": "existence of a stream", "why_tests_cant": "Refutation of a universal claim.", "anchors": ["include/pandaresampler/pandaresampler.cc: fir_process_4samples_sse"]}
{"id": "C31", "title": "Non-SSE IIR processing implements the two-branch all-pass half-band filter", "statement": "For the IIR resamplers without SSE the output stream, for any block partition and in any arithmetic, is that of the textbook structure: two chains of first-order all-pass sections y(n) = c*(x(n) - y(n-1)) + x(n-1), even coefficients in one chain and odd in the other; upsampling interleaves the two outputs, downsampling feeds odd samples to the first and even samples to the second chain and outputs half the sum.", "quantifier": "every number of coefficients, coefficient values, stream, partition, arithmetic", "why_tests_cant": "All streams and partitions, bit-exact.", "anchors": ["include/pandaresampler/hiir/StageProcFpu.hpp: process_sample_pos", "include/pandaresampler/hiir/Upsampler2xFpuTpl.hpp", "include/pandaresampler/hiir/Downsampler2xFpuTpl.hpp", "include/pandaresampler/pandaresampler.cc: IIRUpsampler2, IIRDownsampler2"]}
{"id": "C32", "title": "SSE IIR equals non-SSE IIR", "statement": "The SSE and non-SSE IIR resamplers compute the same output stream in exact arithmetic, and bit-identical output whenever the number of coefficients of every stage used is even (in any arithmetic with commutative + and *).", "quantifier": "every coefficient list, stream, partition", "why_tests_cant": "All streams; exactness under rounding.", "anchors": ["include/pandaresampler/hiir/StageProcSseV2.hpp", "include/pandaresampler/hiir/Upsampler2xSse.hpp", "include/pandaresampler/hiir/Downsampler2xSse.hpp", "include/pandaresampler/hiir/StageProcFpu.hpp"]}
{"id": "C33", "title": "SSE IIR with an odd number of coefficients does not forget rounding errors", "statement": "For an SSE IIR resampler with an odd number of coefficients in the first stage (e.g. PREC_48DB) there is a finite input after which, fed with silence forever, the single precision output never becomes silent: a tone of constant amplitude at the Nyquist frequency of the input rate persists. The non-SSE version's section for that chain has no such state.", "quantifier": "existence of an input; for all later times", "why_tests_cant": "A statement about infinite time.", "anchors": ["include/pandaresampler/hiir/Upsampler2xSse.hpp: constructor", "include/pandaresampler/hiir/StageProcSseV2.hpp"]}
{"id": "C34", "title": "IIR stability", "statement": "In exact arithmetic, IIR output is bounded for bounded input by an explicit constant, and decays geometrically to zero once the input is silent, for every coefficient in the tables (all in (0,1)).", "quantifier": "all bounded streams, all precisions and stages", "why_tests_cant": "Infinite streams.", "anchors": ["include/pandaresampler/hiir/StageProcFpu.hpp", "include/pandaresampler/pandaresampler.cc: create_impl_iir tables"]}
{"id": "C35", "title": "All-pass chains conserve energy", "statement": "In exact arithmetic each all-pass chain of the IIR resampler is lossless: over any finite stream from reset, sum of squared outputs plus the (non-negative) energy stored in the chain equals the sum of squared inputs; hence the energy of the upsampler's output never exceeds twice that of the input and the downsampler's never exceeds half of the input's.", "quantifier": "every stream, every coefficient in (-1,1), any number of sections", "why_tests_cant": "Over all streams.", "anchors": ["include/pandaresampler/hiir/StageProcFpu.hpp"]}
{"id": "C36", "title": "SSE IIR downsampling reads two floats past the end of the input", "statement": "Every SSE IIR downsampling call (ratio 2, 4 or 8) with n >= 1 samples reads input[n] and input[n+1], outside the caller's buffer, also if n is larger than the internal block size; the values read do not influence the output. With two readable floats behind the input all accesses are in bounds.", "quantifier": "every precision, ratio, valid n, buffer, values behind the buffer, state of the object", "why_tests_cant": "Over-reads of 8 bytes do not crash in practice and do not change results.", "anchors": ["include/pandaresampler/hiir/Downsampler2xSse.hpp: process_block"]}
{"id": "C37", "title": "IIR memory safety", "statement": "Apart from C11 and C36, IIR processing is memory safe: all accesses stay within input, output and the filter's own arrays and vector accesses are aligned.", "quantifier": "every ratio, mode, precision, SSE setting, n >= ratio", "why_tests_cant": "As for C08.", "anchors": ["include/pandaresampler/hiir/StageProcFpu.hpp", "include/pandaresampler/hiir/StageProcSseV2.hpp", "include/pandaresampler/hiir/Upsampler2xSse.hpp", "include/pandaresampler/hiir/Downsampler2xSse.hpp"]}
{"id": "C38", "title": "reset() makes a resampler indistinguishable from a new one", "statement": "After reset(), whatever was processed before (including NaN or infinities), a resampler produces bit-identical output to a newly constructed one with the same parameters.", "quantifier": "all configurations, all histories, all later streams", "why_tests_cant": "All histories.", "anchors": ["include/pandaresampler.hh: Resampler2::reset", "include/pandaresampler/pandaresampler.cc: Upsampler2::reset, Downsampler2::reset", "include/pandaresampler/hiir/*: clear_buffers"]}
{"id": "C39", "title": "Instances are independent", "statement": "Interleaving calls to several resampler objects in any order gives each the same output as if it were used alone.", "quantifier": "all configurations, all interleavings", "why_tests_cant": "All interleavings.", "anchors": ["include/pandaresampler/pandaresampler.cc: Upsampler2::process_block, process_block_aligned, process_block_unaligned, process_4samples_aligned, process_sample_unaligned", "include/pandaresampler/pandaresampler.cc: fir_process_one_sample, fir_process_4samples_sse, fir_compute_sse_taps", "include/pandaresampler/pandaresampler.cc: Downsampler2::process_block, process_block_aligned, process_block_unaligned, deinterleave2", "include/pandaresampler/pandaresampler.cc: fir_process_one_sample, fir_process_4samples_sse, fir_compute_sse_taps", "include/pandaresampler.hh: Resampler2::process_block"]}
{"id": "C40", "title": "Silence in, silence out", "statement": "A new or reset resampler fed with zeros outputs only zeros (of either sign), exactly, in single precision.", "quantifier": "all configurations, any number of samples and blocks", "why_tests_cant": "Infinite streams, all configurations.", "anchors": ["include/pandaresampler/pandaresampler.cc: Upsampler2::process_block, process_block_aligned, process_block_unaligned, process_4samples_aligned, process_sample_unaligned", "include/pandaresampler/pandaresampler.cc: fir_process_one_sample, fir_process_4samples_sse, fir_compute_sse_taps", "include/pandaresampler/pandaresampler.cc: Downsampler2::process_block, process_block_aligned, process_block_unaligned, deinterleave2", "include/pandaresampler/pandaresampler.cc: fir_process_one_sample, fir_process_4samples_sse, fir_compute_sse_taps", "include/pandaresampler/hiir/StageProcFpu.hpp"]}
{"id": "C41", "title": "Causality", "statement": "Output samples of a FIR or IIR resampler depend only on input samples given up to the call that produces them: two streams with a common prefix of blocks give identical output for these calls.", "quantifier": "all configurations, streams", "why_tests_cant": "All stream pairs.", "anchors": ["include/pandaresampler/pandaresampler.cc: Upsampler2::process_block, process_block_aligned, process_block_unaligned, process_4samples_aligned, process_sample_unaligned", "include/pandaresampler/pandaresampler.cc: fir_process_one_sample, fir_process_4samples_sse, fir_compute_sse_taps", "include/pandaresampler/pandaresampler.cc: Downsampler2::process_block, process_block_aligned, process_block_unaligned, deinterleave2", "include/pandaresampler/pandaresampler.cc: fir_process_one_sample, fir_process_4samples_sse, fir_compute_sse_taps"]}
{"id": "C42", "title": "AlignedArray alignment and padding", "statement": "For every address returned by malloc, the elements of an AlignedArray start at a multiple of 64, lie inside the allocation, and at least the rest of the cache line of the last byte also lies inside the allocation (no false sharing at either end), provided n*sizeof(T)+126 does not overflow size_t. The proviso is necessary.", "quantifier": "every allocation address, element size and count", "why_tests_cant": "All addresses.", "anchors": ["include/pandaresampler.hh: AlignedArray::allocate_aligned_data"]}
{"id": "C43", "title": "AlignedArray must not be copied", "statement": "Copying an AlignedArray (the implicitly generated copy constructor) and destroying both objects frees the same memory twice.", "quantifier": "every array", "why_tests_cant": "Double free is a property of the trace.", "anchors": ["include/pandaresampler.hh: AlignedArray, ~AlignedArray"]}
{"id": "C44", "title": "In-place downsampling is correct except for the FIR vector code at ratio 2", "statement": "A downsampler by 2, 4 or 8 may write its output over its own input buffer (at the beginning of the input or before it) and yields the same result as with separate buffers, changing nothing else; the exception is the FIR downsampler by 2 with vector code, where in-place use can change the result.", "quantifier": "every reachable program, configuration, history, block and call for the first part, existence for the exception", "why_tests_cant": "All streams.", "anchors": ["include/pandaresampler/hiir/Downsampler2xFpuTpl.hpp: process_block (asserts)", "include/pandaresampler/pandaresampler.cc: Downsampler2::process_block", "include/pandaresampler/pandaresampler.cc: Resampler2 cascades (tmp buffers)"]}
{"id": "C45", "title": "Integer power", "statement": "hiir's ipowp (x, n) returns x^n for every n >= 0 in exact arithmetic, and terminates.", "quantifier": "every x and every n of the type long", "why_tests_cant": "All n.", "anchors": ["include/pandaresampler/hiir/fnc.hpp: ipowp"]}
{"id": "C46", "title": "Group delay formula of the designer", "statement": "The expression evaluated by compute_group_delay for one section is minus the derivative of the phase of the corresponding all-pass factor (in z^-2), and the reported group delay of a stage table at 1000 Hz and the literal in the source agree to 6 decimals. For the three filters that mkiir documents in its switched-off check (test_group_delay), its function group_delay returns the documented values 3.999999, 2.758001 and 1.600000 to 6 decimals.", "quantifier": "every list of coefficients in [0,1) and every frequency in [0, 0.5); all 15 tables", "why_tests_cant": "A real-analysis identity.", "anchors": ["include/pandaresampler/hiir/PolyphaseIir2Designer.cpp: compute_group_delay", "filter-design/mkiir.cc", "include/pandaresampler/pandaresampler.cc: create_impl_iir"]}
{"id": "C47", "title": "compute_phase_delay does not return the phase delay", "statement": "The phase delay function returns the delay computed from the complementary angle; it does not equal the phase delay -phi(w)/w of the section.", "quantifier": "every coefficient in [0,1) and every frequency in (0,0.5) (first-order section), resp. (0,0.25] (section in z^-2)", "why_tests_cant": "Refutes the documentation.", "anchors": ["include/pandaresampler/hiir/PolyphaseIir2Designer.cpp: compute_phase_delay"]}
{"id": "C48", "title": "Frequency accuracy and alias rejection of FIR resamplers", "statement": "In exact arithmetic with the single precision taps: a sine of any amplitude, phase and frequency up to 18 kHz (at 44.1 kHz) is, after settling, upsampled by any ratio to the same sine on the finer grid, delayed by delay(), with an error of at most an explicit constant per precision times the amplitude; this is within the dB thresholds of tests/testresampler.cc.  The same holds for downsampling, and a sine that would be aliased into the range below 18 kHz is suppressed to that level.  With PREC_LINEAR the interpolated samples have gain cos (w/2).", "quantifier": "every real frequency in the band, every amplitude and phase, every ratio, precision, block partition and SSE setting", "why_tests_cant": "The tests scan 50, 100, ..., 18000 Hz; the claim is for all reals in the interval.", "anchors": ["include/pandaresampler/pandaresampler.cc: coefficient tables", "tests/testresampler.cc"]}
{"id": "C49", "title": "Sine waves through the FIR upsampler", "statement": "A sine of any amplitude, phase and frequency is mapped, after settling, to the same sine on the finer grid, delayed by delay(), with the odd outputs exact and the even outputs scaled by the real gain A(theta).", "quantifier": "every amplitude, phase, frequency and precision", "why_tests_cant": "Continuum of parameters.", "anchors": ["include/pandaresampler/pandaresampler.cc: Upsampler2, coefficient tables"]}
{"id": "C50", "title": "Up- followed by downsampling", "statement": "Upsampling by r and downsampling the result by r with FIR filters delays a ramp by the sum of both delays measured in input samples and reproduces constants up to the product of DC gains.", "quantifier": "every affine signal, ratio and precision", "why_tests_cant": "All signals of the family.", "anchors": ["include/pandaresampler.hh: Resampler2::delay"]}
{"id": "C51", "title": "Designer: parameters of the transition band", "statement": "compute_transition_param accepts exactly the transition bandwidths in (0, 0.5); for these its own asserts hold and the selectivity k is in (0,1) and the nome q in (0, 0.612). Both strictly decrease when the transition band gets wider.", "quantifier": "every real transition bandwidth", "why_tests_cant": "A statement about all real arguments; the asserts could fail at values never tried.", "anchors": ["include/pandaresampler/hiir/PolyphaseIir2Designer.cpp: compute_transition_param"]}
{"id": "C52", "title": "Designer: number of coefficients", "statement": "compute_nbr_coefs_from_proto returns (when positive) the smallest number of coefficients whose attenuation according to compute_atten_from_order_tbw reaches the request; the attenuation is positive and strictly increases with the number of coefficients. The result is not always positive: there are a positive attenuation and a bandwidth with a negative result, which compute_coefs_spec_order_tbw then rejects with an assert. With the same number of coefficients a wider transition band gives strictly more attenuation; a request for more attenuation or a narrower band never returns a smaller (positive) number of coefficients.", "quantifier": "every attenuation > 0, every bandwidth in (0,0.5)", "why_tests_cant": "Minimality compares with all other counts; real arguments.", "anchors": ["include/pandaresampler/hiir/PolyphaseIir2Designer.cpp: compute_nbr_coefs_from_proto, compute_order, compute_atten, compute_atten_from_order_tbw"]}
{"id": "C53", "title": "Designer: coefficients are between 0 and 1", "statement": "The series loops in compute_acc_num and compute_acc_den terminate (within 23 terms), no assert of compute_coefs_spec_order_tbw fails, and every coefficient that is a number lies in [0,1].", "quantifier": "every number of coefficients > 0, every bandwidth in (0,0.5)", "why_tests_cant": "Termination of a numeric loop for all reals.", "anchors": ["include/pandaresampler/hiir/PolyphaseIir2Designer.cpp: compute_coefs_spec_order_tbw, compute_coef, compute_acc_num, compute_acc_den"]}
{"id": "C54", "title": "The IIR tables are the output of the design program", "statement": "For every precision and stage, running the steps of mkiir.cc in exact arithmetic gives exactly as many coefficients as the table in create_impl_iir has, each within 1e-12 of the literal, and a group delay that rounds to the literal.", "quantifier": "all 15 tables", "why_tests_cant": "The tables are generated offline; nothing in the tests re-derives them.", "anchors": ["filter-design/mkiir.cc: main, mk_group_delay", "include/pandaresampler/pandaresampler.cc: create_impl_iir"]}
{"id": "C55", "title": "Designer: search for a group delay", "statement": "For sensible arguments compute_coefs_spec_order_gdly terminates without failing an assert; for 0.5 <= f_rel < 1, which its own asserts accept, it never returns. FAIL_CONV is returned only if the group delay is within the tolerance, and there are arguments for which OK is returned with a group delay outside of the tolerance.", "quantifier": "every argument; existence for the last part", "why_tests_cant": "The wrong branch is only taken after 1000 bisections.", "anchors": ["include/pandaresampler/hiir/PolyphaseIir2Designer.cpp: compute_coefs_spec_order_gdly"]}
{"id": "C56", "title": "IIR resamplers: frequency accuracy and alias rejection", "statement": "In exact arithmetic, an IIR resampler fed with a sinusoid up to 18 kHz (at 44.1 kHz) produces, once the effect of whatever came before has faded, the sinusoid shifted by an angle that depends on precision, ratio and frequency only, up to unwanted components of a few times the error of the precision (upsampling) or its square (downsampling). Components of the input of a downsampler that would be aliased to a frequency below 18 kHz are suppressed by the error of the precision. That error is below the nominal precision for 48, 72, 96 and 120 dB; for 144 dB it is not.", "quantifier": "every reachable IIR resampler, every amplitude, phase and frequency in the band, every earlier input, every output sample", "why_tests_cant": "The tests only try FIR filters, and only some frequencies.", "anchors": ["include/pandaresampler/pandaresampler.cc: create_impl_iir, IIRUpsampler2, IIRDownsampler2", "tests/testresampler.cc: check_accuracy_full"]}
{"id": "C57", "title": "IIR resamplers: delay()", "statement": "For an IIR resampler, delay() is (to a small tolerance) the group delay at 1 kHz, and for every sinusoid up to 1 kHz the output is the input delayed by delay() samples, up to a phase error proportional to the frequency and the error of the filter.", "quantifier": "every reachable IIR resampler, every sinusoid up to 1 kHz, every earlier input, every output sample", "why_tests_cant": "The tests compare to a sinusoid with a fitted phase, delay() of IIR filters is not checked.", "anchors": ["include/pandaresampler.hh: delay", "include/pandaresampler/pandaresampler.cc: IIRDownsampler2, IIRUpsampler2, create_impl_iir"]}
{"id": "C58", "title": "IIR resamplers: rounding errors stay bounded forever", "statement": "In single precision, an IIR resampler that does not use vector code produces finite samples that differ from the result in exact arithmetic by at most a fixed number of units 2^-24 times the largest input (69 for ratio 2 and 48 dB, 15715 for ratio 8 and 144 dB), however long the stream is. With vector code the same holds if every stage has an even number of coefficients; otherwise the bound has a term proportional to the number of samples so far. No overflow for inputs up to 2^100.", "quantifier": "every reachable IIR resampler, every bound M between 2^-100 and 2^100, every input of finite samples up to M, every output sample of arbitrarily long streams", "why_tests_cant": "The tests run short sine signals; a recursive filter could accumulate errors over hours, and only for particular inputs.", "anchors": ["include/pandaresampler/pandaresampler.cc: IIRUpsampler2, IIRDownsampler2", "include/pandaresampler/hiir/StageProcFpu.hpp", "include/pandaresampler/hiir/StageProcSseV2.hpp"]}
{"id": "C59", "title": "IIR resamplers with vector code: rounding errors can add up", "statement": "With vector code and an odd number of coefficients, the completing section with coefficient 1 does not damp rounding errors: there are inputs of size at most 1 for which the error of the 48 dB upsampler grows by 2^-24 per input sample, up to 300000 samples. The outputs of two upsamplers that only differ in use_sse can differ by more than 1.7 percent, so the claim that use_sse has no effect beyond the nominal error is false.", "quantifier": "every number of samples up to 300000; existence of an input and of client programs", "why_tests_cant": "The input has to be chosen sample by sample such that every rounding goes the same way; typical signals do not show the effect.", "anchors": ["include/pandaresampler/hiir/Upsampler2xSse.hpp", "include/pandaresampler/hiir/StageProcSseV2.hpp", "include/pandaresampler/pandaresampler.cc: IIRUpsampler2SSE"]}
{"id": "C60", "title": "The self test of the vector code", "statement": "Resampler2::test_filter_impl() terminates without undefined behaviour for every sequence of results of rand(), frees its arrays and touches no other memory. It returns true exactly if for every filter with less than 64 taps 1, 2, ... and newly drawn samples the vector result and the sum in double arithmetic differ by at most 0.00001 on average. In exact arithmetic it always returns true, as it does without vector code. In floating point a correct implementation is not always accepted: there is a sequence of rand() results within the allowed range for which it returns false.", "quantifier": "every platform, every RAND_MAX, every sequence of rand() results, every aligned address of the arrays, every content of uninitialised memory", "why_tests_cant": "The test is itself the test; it runs with one random sequence, and says nothing about others.", "anchors": ["include/pandaresampler/pandaresampler.cc: fir_test_filter_sse, test_filter_impl", "include/pandaresampler.hh: test_filter_impl"]}
{"id": "C61", "title": "Single precision accuracy for sinusoids", "statement": "If the input samples are those of a sinusoid in the pass band up to an error d each, then the float output is finite and differs from the delayed sinusoid at the new rate by at most the nominal filter error plus d times the gain of the filter plus a fixed number of units 2^-24 of the amplitude (depending only on mode, ratio and precision). Alias frequencies are suppressed up to the same sum. For sinusoids rounded correctly to float this gives a guaranteed signal to error ratio in dB for each FIR configuration. For IIR resamplers the same holds once the effect of earlier input has faded, with a growing term for vector code.", "quantifier": "every platform, client program, partition into blocks, amplitude, frequency in the band, phase, perturbation of the input, output index after the start-up time", "why_tests_cant": "testresampler measures a few thousand frequencies with one phase and in one build, and compares with a threshold per precision; it does not bound the error of other phases, amplitudes or block sizes.", "anchors": ["include/pandaresampler.hh: process_block", "include/pandaresampler/pandaresampler.cc: fir_process_one_sample, fir_process_4samples_sse, Upsampler2, Downsampler2, IIR classes", "tests/testresampler.cc: error tests"]}
{"id": "C62", "title": "The oversampling example of the documentation", "statement": "The class Saturation of the API documentation (upsample, apply a function to every sample, downsample) works as a client would expect, for every oversampling ratio, precision and function: process terminates without undefined behaviour for every block size from 1 on, also if in and out are the same array, and writes only the output. The output has as many samples as the input and is the downsampling of the function of the upsampling of the whole input stream, independent of the block sizes (bit for bit without vector code, exactly in exact arithmetic). In single precision the output is finite and within an explicit bound of the exact result, for tanh(3 x) as documented within 2.5e-4; it is bounded for a bounded function, and silence stays silence. reset() makes it new.", "quantifier": "every sequence of process, reset and client operations, block sizes, addresses, contents of uninitialised memory, function, ratio, precision, platform", "why_tests_cant": "The example is only in a comment and never compiled by the tests; the result depends on block sizes, alignment and overlap of the caller's arrays.", "anchors": ["include/pandaresampler.hh: documentation, class Saturation", "include/pandaresampler.hh: process_block, reset"]}
{"id": "C63", "title": "Unsupported ratios", "statement": "The constructor reports a failed check for every ratio other than 1, 2, 4 and 8. For the ratios 0, 3, 5, 6 and 7 every call of process_block with at least one sample then dereferences a null pointer. For ratios above 8 the object is that of ratio 8: delay() and reset() agree with it, as does process_block for blocks up to 1024 samples; for longer blocks the output pointer is advanced with the given ratio after each 1024 samples, so an upsampler leaves a gap of unwritten samples and a downsampler continues 1024 div ratio instead of 128 samples after the start of its output.", "quantifier": "every ratio, mode, precision, filter, platform, state, block size, contents of uninitialised memory", "why_tests_cant": "The tests construct only supported ratios; the behaviour for others depends on block size and on which pointers are null.", "anchors": ["include/pandaresampler.hh: process_block, delay, reset", "include/pandaresampler/pandaresampler.cc: Resampler2::Resampler2, init_stage"]}
{"id": "C64", "title": "The band split of the IIR downsamplers", "statement": "process_block_split of the hiir downsamplers (with SSE instructions or without) succeeds for output arrays that do not overlap each other, writes only the two output arrays, and its outputs depend only on the samples passed since construction or the last clear_buffers, not on block sizes, addresses or whether the outputs overwrite the input. The functions for one sample agree with those for blocks. The low band is the output of process_block (exactly without rounding, bit for bit in single precision without SSE instructions, but not always with them). Without rounding, sum and difference of the bands are the all-pass filtered odd and even samples, the energies of the bands add up to half the energy of the input less what is stored, the high band is minus the low band of the mirrored spectrum, sinusoids give sinusoids in both bands with squared gains adding up to 1, and with the library's coefficients each band rejects the other band to the accuracy of the precision. Output arrays that overlap but are not equal pass the asserts and give wrong samples.", "quantifier": "every coefficient list, input stream, partition into calls, memory layout, arithmetic; sinusoids of every amplitude, frequency and phase", "why_tests_cant": "No test calls these functions; gains and energies are statements about every signal and about the limit of long streams.", "anchors": ["include/pandaresampler/hiir/Downsampler2xFpuTpl.hpp: process_sample_split, process_block_split", "include/pandaresampler/hiir/Downsampler2xSse.hpp: process_sample, process_sample_split, process_block_split", "include/pandaresampler/hiir/Upsampler2xSse.hpp: process_sample"]}
{"id": "C65", "title": "Sections with the other sign", "statement": "process_sample_neg of the hiir stage processors (FPU and SSE) never fails on a constructed object, changes only the object's state, and passes each of its two input streams through the chain of sections y[k] = (x[k] + y[k-1]) c - x[k-1] with the coefficients of even and of odd index. Without rounding this is the filter of process_sample_pos applied to the mirrored spectrum, so a sinusoid keeps its amplitude and is delayed by the phase lag that process_sample_pos has at the mirrored frequency, after a transient that dies out geometrically.", "quantifier": "every coefficient list, pair of input streams, number of calls, arithmetic; sinusoids of every amplitude, frequency and phase", "why_tests_cant": "No test calls these functions.", "anchors": ["include/pandaresampler/hiir/StageProcFpu.hpp: process_sample_neg", "include/pandaresampler/hiir/StageProcSseV2.hpp: process_sample_neg"]}
{"id": "C66", "title": "Sums of sinusoids and round trips", "statement": "In exact arithmetic, after settling, a FIR upsampler of any ratio maps a sum of any number of sinusoids below 18 kHz (at 44.1 kHz) to the same sum on the finer grid, delayed by delay(), up to an explicit constant per ratio and precision times the sum of the amplitudes. A downsampler keeps the sinusoids in the band and removes those that would be aliased into it, up to such a constant. Upsampling followed by downsampling with the same ratio and precision returns the input delayed by up.delay()/ratio + down.delay(), downsampling followed by upsampling returns the part of the input below the band limit delayed by down.delay()*ratio + up.delay(), each with an explicit constant that is, for ratio 2, within the thresholds that tests/testresampler.cc uses for oversampling and subsampling.", "quantifier": "every finite list of tones with real amplitudes, frequencies and phases, every ratio, precision, block partition and SSE setting, both orders of the two resamplers", "why_tests_cant": "The tests check single tones at 50 or 25 Hz steps, and round trips only for ratio 2 and two precisions.", "anchors": ["include/pandaresampler/pandaresampler.cc: coefficient tables", "tests/testresampler.cc: perform_test, check_accuracy_full"]}
{"id": "C67", "title": "Single precision accuracy for sums of sinusoids and round trips", "statement": "With binary32 arithmetic as the code uses it, a FIR resampler fed with samples that are within d of a sum of sinusoids produces, after settling, only finite samples that differ from the resampled, delayed sum by at most the filter error times the sum of the amplitudes plus an explicit noise term in d and the number of roundings. The same holds for upsampling followed by downsampling and for downsampling followed by upsampling, where the noise of the first resampler is amplified by at most the gain of the second. For samples rounded to nearest the total error of a round trip is below an explicit number of dB for each ratio and precision (for ratio 2 between 41 and 91 dB).", "quantifier": "every finite list of tones with total amplitude between 2^-100 and 2^100, every input error d up to the total amplitude, every ratio except where stated, every precision except PREC_LINEAR, every block partition, SSE setting and platform", "why_tests_cant": "The tests run single tones at sampled frequencies; floating point errors depend on every sample and on the order of summation, and the worst case over all sums of tones cannot be sampled.", "anchors": ["include/pandaresampler/pandaresampler.cc: fir_process_one_sample, fir_process_4samples_sse, Upsampler2, Downsampler2", "tests/testresampler.cc: perform_test, check_accuracy_full"]}
{"id": "C68", "title": "The accuracy tests", "statement": "The accuracy tests of tests/testresampler.cc (perform_test<TEST_ACCURACY>, run_accuracy, check_accuracy_full) never read or write outside their arrays, misaligned, or fail an assert, whatever the arguments, the random block sizes and offsets, and the arithmetic; they end if rand() allows progress. In exact arithmetic a run passes whenever its limit is not below the filter error of its type, precision and frequencies; all runs of check_accuracy_full are such, so it passes. In single precision (samples of the sine rounded to float, comparison in real numbers) a run whose frequencies are in the band passes if its limit in dB is at most an explicit guaranteed number per type and precision. The comparison is one-sided: samples that are NaN, minus infinity or at most -1 never change the recorded maximum, so such outputs are not detected.", "quantifier": "every sequence of rand() results, every contents of stack arrays, every platform, SSE setting, test type, number of bits, frequency range and limit; every content of the checked array for the last sentence", "why_tests_cant": "A test program does not test itself; whether it passes depends on the random block partition, and that it overlooks errors with one sign shows in no run of a correct library.", "anchors": ["tests/testresampler.cc:375-591 perform_test", "tests/testresampler.cc:809-829 run_accuracy", "tests/testresampler.cc:845-885 check_accuracy_full"]}
{"id": "C69", "title": "Sums of sinusoids and round trips with IIR resamplers", "statement": "In exact arithmetic, an IIR resampler fed with a sum of sinusoids (and with anything before that) produces the sum of the sinusoids at the new rate, each with its own phase lag, up to the filter error times the sum of the amplitudes and a transient that fades out. Downsampling removes the sinusoids that would be aliased into the band up to the filter error. Upsampling followed by downsampling with the same ratio and precision keeps every amplitude up to twice (ratio 4) or 3.23 times (ratio 8) the square of the filter error; with ratio 2 it is exactly all-pass: every frequency, also beyond the band, passes with gain 1, and the energy of the output plus what the sections store is the energy of the input. For frequencies up to 1 kHz the round trip delays by the sum of both delay() values (in samples of the lower rate) up to a small tolerance. Downsampling followed by upsampling is accurate for kept sinusoids and suppresses the others. No round trip adds energy.", "quantifier": "every finite list of sinusoids, every bounded input before them, every ratio and precision for which IIR tables exist, every block partition, SSE setting and platform; the energy statements for every input", "why_tests_cant": "The tests contain no round trip through IIR resamplers with sums of sinusoids; a linear system has to be checked for every combination of frequencies, amplitudes and phases, and for every previous input.", "anchors": ["include/pandaresampler/hiir/Upsampler2xFpuTpl.hpp: process_block", "include/pandaresampler/hiir/Downsampler2xFpuTpl.hpp: process_block", "include/pandaresampler/pandaresampler.cc: IIRUpsampler2, IIRDownsampler2, Resampler2::delay"]}
{"id": "C70", "title": "FIR resamplers amplify no signal, and oversampling by 2 loses none", "statement": "In exact arithmetic, for every FIR resampler (all ratios and precisions, UP and DOWN) and every sequence of process_block calls, the energy (sum of squares) of the output is at most excess * ratio (UP) or excess / ratio (DOWN) times the energy of the input, where excess is 1, 1.00602, 1.0121, 1.0182 for ratio 1, 2, 4, 8: the mean square grows by less than 0.08 dB, whatever the signal. The same holds for the difference of the outputs of two equally configured resamplers and the difference of their inputs (noise is not amplified), and for round trips with the square of the factor. With ratio 2, any signal that is up- and downsampled and followed by silence comes back with at least a quarter of its energy.", "quantifier": "all programs using the API, all inputs (arbitrary samples, not only sinusoids), all block sizes, ratios 1, 2, 4, 8, all FIR precisions", "why_tests_cant": "The tests use single sinusoids in the pass band; the worst signal for the energy gain is not a pass band sinusoid, and the space of all signals of all lengths cannot be tested.", "anchors": ["include/pandaresampler/pandaresampler.cc:354-489", "include/pandaresampler/pandaresampler.cc:498-685", "include/pandaresampler/pandaresampler.cc:687-1072", "include/pandaresampler.hh:196-251"]}
{"id": "C71", "title": "Single precision accuracy of IIR resamplers for sums of sinusoids and round trips", "statement": "With binary32 arithmetic as the code uses it, an IIR resampler whose input (after anything bounded) is within d of a sum of sinusoids produces only finite samples, which differ from the sum of the sinusoids at the new rate (each with its own phase lag) by at most the filter error times the sum of the amplitudes, the fading transient of the exact filter, and an explicit noise term in d and the number of roundings. Downsampling suppresses the sinusoids that would be aliased by the same bounds. The same holds for upsampling followed by downsampling and for downsampling followed by upsampling, where the noise of the first resampler enters the second as an error of its input. For frequencies up to 1 kHz upsampling followed by downsampling delays by the sum of both delay() values up to a small tolerance.", "quantifier": "every finite list of sinusoids, every previous input below a bound between 2^-100 and 2^100 (2^80 for round trips), every input error d, every ratio and precision for which IIR tables exist, every block partition, SSE setting and platform; for vector code with an odd number of coefficients the noise term grows with the length of the stream (proved up to 5592404 samples at the higher rate), elsewhere it does not", "why_tests_cant": "Recursive filters keep every rounding error they ever made: whether these errors stay bounded for every signal and every length cannot be decided by finite runs, and the tests contain no round trip through IIR resamplers.", "anchors": ["include/pandaresampler/hiir/Upsampler2xFpuTpl.hpp: process_block", "include/pandaresampler/hiir/Downsampler2xFpuTpl.hpp: process_block", "include/pandaresampler/hiir/StageProcFpu.hpp", "include/pandaresampler/hiir/StageProcSseV2.hpp", "include/pandaresampler/pandaresampler.cc: IIRUpsampler2, IIRDownsampler2, Resampler2::delay"]}
{"id": "C72", "title": "tests/testmultidelay.cc: no undefined behaviour, the delays it prints, the errors it measures, and what it cannot detect", "statement": "Run without arguments, testmultidelay makes no memory, alignment or assertion error and returns 0, and each of its 27 reports is about the samples that a Resampler2 produces for the 1 kHz sinusoid. In exact arithmetic it prints the delays 31, 41, 51, 71, 95, 117, ... (all 27 given) and every measured error is at most 4.1e-5, below its limit 5e-5; with binary32 samples the delays are the same and each error is finite and below the limit for 20 of the 27 runs, at most 7.1e-5 for upsampling by 8 with 96 dB, 1.1e-4 and 2.8e-4 for oversampling by 4 and 8. With four arguments the same safety holds for every supported ratio, precision and filter, except that 'down 2 <bits> iir-sse' on a machine with SSE reads behind the end of the input array. With one to three arguments it reads an argument that is not there; with asserts, other words or a ratio above 8 end in a failed assertion; a ratio from 0 to 8 or a precision for which there is no filter never leads to a report. With 'up' and a negative ratio (not below -2^21) it returns 0 and reports the error 0, without looking at any sample. The limit is only printed: 'up 2 8 fir' measures an error of more than 20 times the limit and returns 0. The error only counts outputs that are too small: outputs that are too large, +infinity or NaN give error 0.", "quantifier": "all platforms, SSE settings, addresses of the arrays, contents of uninitialised memory, builds with and without NDEBUG, all arguments; the sentences about delays and errors for the runs without arguments", "why_tests_cant": "This is a test; whether it would notice a wrong delay, and whether it can itself go wrong on another machine (arrays at other addresses, other instruction sets), is not something it can tell.", "anchors": ["tests/testmultidelay.cc:29-103", "tests/testmultidelay.cc:105-145", "include/pandaresampler/pandaresampler.cc: Resampler2::delay, process_block"]}
{"id": "C73", "title": "tests/testaddr.cc cannot fail, at any address", "statement": "For every block length below any limit (100 in the test; in general as long as 8 times the length fits the block size type), for ratios 1, 2, 4, 8 and all precisions, constructing an upsampler and a downsampler and passing vectors of exactly M and M * ratio samples through both accesses no sample outside the vectors and returns 0, wherever the vectors are allocated.", "quantifier": "every limit for the block length, every address of the vectors (any alignment), every platform, every content of memory", "why_tests_cant": "The test runs with the addresses that one allocator happens to return and needs the address sanitizer to notice an access outside the vectors; other alignments and lengths are never tried.", "anchors": ["tests/testaddr.cc:9-37", "include/pandaresampler/pandaresampler.cc:354-489", "include/pandaresampler/pandaresampler.cc: Resampler2::process_block"]}
{"id": "C74", "title": "Recovery from NaN, infinities and overflow", "statement": "FIR resamplers recover: if the input samples in an interval are finite and at most M <= 2^109, whatever precedes and follows (NaN, infinities, numbers that overflow), then all outputs from a fixed number of samples after the beginning of the interval (18 to 67 at the lower rate for the precisions with tables, 4 to 7 for linear) to a fixed number before its end (6 to 11) are finite and as accurate as C07 says, for all ratios and with vector code. IIR resamplers do not recover: after one NaN or infinity in the input, every output from the frame of that sample on is NaN or infinite and every later one is NaN, until reset(). Overflow has the same effect: after the two finite input samples FLT_MAX, -FLT_MAX every later output of an IIR upsampler is non-finite, whatever follows.", "quantifier": "every program (any number of resamplers, any blocks and addresses), every stream, every output index; modes up and down, ratios 2, 4, 8 (FIR also 1), all precisions, with and without vector code", "why_tests_cant": "\"For ever\" and \"whatever follows\" quantify over all later inputs; NaN and overflow are not exercised by the tests of the project at all.", "anchors": ["include/pandaresampler/pandaresampler.cc:354-489", "include/pandaresampler/hiir/StageProcFpu.hpp", "include/pandaresampler/hiir/StageProcSseV2.hpp", "include/pandaresampler.hh:297-310"]}
{"id": "C75", "title": "The coefficients used at run time are the literals of the source, correctly rounded, and appear in the impulse response", "statement": "Every coefficient of the FIR and IIR tables is used as the binary32 number nearest to the decimal literal in the source (for FIR upsampling: to twice the literal), although the literal is first converted to double; its relative error is at most 2^-24. A unit impulse at index k makes a FIR upsampler of ratio 2 output exactly these numbers, in reversed order, at the even positions and the impulse, delayed, at the odd positions; a FIR downsampler of ratio 2 outputs exactly the coefficients if k is even and a single sample 0.5 if k is odd; all other outputs are 0. This holds with and without vector code and for every division into blocks.", "quantifier": "all literals of all tables (325); every program, platform, block partition and address, every position of the impulse, every output index, all precisions", "why_tests_cant": "A test can print some impulse responses; that no order of additions (which depends on addresses and block sizes with vector code) disturbs a single bit, and that the double rounding never matters, needs a proof.", "anchors": ["include/pandaresampler/pandaresampler.cc:690-1072", "include/pandaresampler/pandaresampler.cc:1231-1366", "include/pandaresampler.hh:320-335", "include/pandaresampler/hiir/Upsampler2xFpuTpl.hpp:61-70"]}
{"id": "C76", "title": "Upsampling a block of more than 2^31 samples silently loses output", "statement": "process_block takes the block size as unsigned int, but a FIR upsampler of ratio 2 computes output positions (2 * i) as unsigned int too. For every block of N..2^32-7 samples (N = order()) the call returns normally and writes at most the first 2^32 + 2 (N + 2) of the 2 n output samples, to which the caller is entitled; all others keep what the output array contained. So upsampling more than 2^31 + N + 2 samples at once leaves the end of the output unwritten, with and without vector code: e.g. a block of 2^31 + 5 samples with linear interpolation.", "quantifier": "every program, object, block size, contents and position of input and output, platform, number type", "why_tests_cant": "It takes a 8 GiB input block and a 16 GiB output block to see it.", "anchors": ["include/pandaresampler/pandaresampler.cc:385-425 Upsampler2::process_block_aligned, process_block_unaligned", "include/pandaresampler.hh:196 Resampler2::process_block"]}
{"id": "C77", "title": "The command line of the test program", "statement": "For all arguments, and whatever atoi and atof return, the option parser of testresampler accesses no array element out of bounds and no NULL pointer and terminates. Its effect is a function of the arguments, given by simple rules: options (--opt, --opt=value, --opt value) take effect from left to right and are removed, --help ends the program with code 0, a missing, unwanted or invalid value with code 1; a test runs if exactly one argument is left and names one. Whatever the arguments, the settings of a test satisfy: the block size is even and at least 2, the precision is one for which filters exist, the threshold is not positive, SSE is not used where it is not available. So the accuracy test runs without memory error, misaligned access or failing assertion for every command line with a block size below 2^29. But --block-size=2147483647 is accepted and makes the arrays empty, so that the first block writes out of bounds, for every kind of resampling; and a malformed --freq-scan is accepted if it follows a correct one.", "quantifier": "every list of argument strings, every atoi and atof, every sequence of random numbers, every platform, number type and address", "why_tests_cant": "The argument strings are unbounded in number and length; random block sizes make every run of the accuracy test different.", "anchors": ["tests/testresampler.cc:187-351 check_arg, Options::parse", "tests/testresampler.cc:375-591 perform_test<TEST_ACCURACY>", "tests/testresampler.cc:739-782 standalone", "tests/testresampler.cc:887-911 main"]}
{"id": "C78", "title": "The FIR coefficients are those that the design script asks for", "statement": "For each of the 15 filters designed by filter-design/mkfir.sh there is exactly one set of coefficients that fits the parameters in the script (number of coefficients, attenuation; parameter 0.75): a sinc function multiplied with the ultraspherical window whose last side lobe has the given attenuation. The literals in the C++ source are these coefficients, in the same order, each with an error of at most 2e-16 and a relative error of at most 6e-14; together with the rounding to single precision the relative error is at most 5.961e-8 (2^-24 = 5.9605e-8). All FIR tables except the one for linear interpolation are designed in this way.", "quantifier": "all 15 tables, all coefficients, every window that satisfies the definition", "why_tests_cant": "No test can say that the 300 literals are what the design formula gives: the formula contains a critical point of a polynomial of degree up to 104 and the solution of an equation with it, which a test would have to compute in floating point with unknown error.", "anchors": ["filter-design/mkfir.sh:3-58 mkfir", "filter-design/us_sinc.m:1-8 us_sinc", "include/pandaresampler/pandaresampler.cc:690-1072 coefficient tables"]}
{"id": "C79", "title": "The small programs in tests/ do what they print", "statement": "testmultiperf, testsimple, testdownmulti and testdistort (modes fir and iir) run to the end without an access outside of their arrays for every ratio 1, 2, 4, 8 and every precision for which there is a filter, and what they print or transform is the output specified for the input they generate. testsimple's #OUT lines from 62 on are the 440 Hz sine at twice the rate, 31 samples late, within 2.6e-5. Exceptions: testmultiperf with down or over, ratio 8 and iir-sse reads behind its array in the first repetition (the array is as long as the input of the downsampler and the vector code reads two floats more, C36); with an IIR filter of at most one bit it uses a null pointer. With another number of arguments testmultiperf and testdownmulti return 1 and do nothing else; with other words than the documented ones (up, down, over; fir, iir, iir-sse) an assert fails.", "quantifier": "all arguments, number of repetitions, addresses of the arrays, contents of uninitialised memory, platforms, arithmetics (float for the sine)", "why_tests_cant": "The programs are measuring tools that nobody checks; a read of 8 bytes behind an array does not crash and does not change the result.", "anchors": ["tests/testmultiperf.cc:21-74 main", "tests/testsimple.cc:8-26 main", "tests/testdownmulti.cc:38-103 check_amps, main", "tests/testdistort.cc:36-122 main"]}
{"id": "C80", "title": "The impulse response and performance tests of testresampler", "statement": "With every command line that selects them the tests \"perf\" and \"dirac\" of testresampler run to the end without an access outside of their arrays, misaligned access or failing assert, as long as the block size of \"perf\" is below 2^31 - 4. perf processes as many whole blocks as fit into 64000000 samples, none if the block is larger. With block sizes from 2^31 on (for example --block-size=-2) the size of the arrays overflows and the program always writes outside of them. dirac prints 150 samples of what new objects put out for a 1 followed by zeros; in single precision with or without SSE, for --up these are the doubled literals of the coefficient table in reverse order, each rounded once, alternating with zeros and one exact 1, for --down the rounded literals in reverse order and then zeros. The 150 samples, according to the comment \"enough space for all possible tests\", contain all of the response that is not zero with --up, --down and --oversample, and with --subsample for up to 16 bits, but not with --subsample and 20 or 24 bits: there the response is cut off. At the end of both tests their arrays are released.", "quantifier": "all command lines, input samples (also NaN), addresses of the arrays, contents of uninitialised memory, platforms; block sizes below 2^31 - 4 or from 2^31 on; float for the values", "why_tests_cant": "The output is for plotting and nobody compares it with the tables; that the plot of the subsample response ends too early is not visible because the missing samples are tiny, and huge block sizes are not tried.", "anchors": ["tests/testresampler.cc:375-436 perform_test", "tests/testresampler.cc:637-667 perform_test", "tests/testresampler.cc:234-351 Options::parse"]}
{"id": "C81", "title": "The error table and error spectrum tests of testresampler", "statement": "With every block size below 2^29, precision, resample type and frequency range the tests \"error-table\" and \"error-spectrum\" of testresampler cause no access outside of their arrays, misaligned access or failing assert, and end if rand() returns usable block sizes again and again. error-table prints for each tested frequency the output samples with the consecutive numbers 4 * order + 1 to at least 19999, each with the value that a delayed sine of this frequency should have and their difference; in exact arithmetic, and in single precision for the frequencies that pass, this difference is never larger than the error that the precision promises. error-spectrum always has more than the 16384 values it needs if there is at least one tested frequency, so its message \"too few values for computing error spectrum, increase block size\" appears only if no frequency is tested, and a larger block size does not help. It prints 8192 lines for frequencies from 0 up to half of the sample rate of the output, none of them above twice the error that the precision promises. If the error is a sine whose frequency is that of one line, this line shows its amplitude, the lines beside it show 0.25/0.42 and 0.04/0.42 of it, and all others show 0: the window is normalised correctly.", "quantifier": "all arithmetics, block sizes below 2^29, sequences of random numbers, frequency settings, addresses, contents of uninitialised memory; exact and single precision for the sizes of the errors; all amplitudes, phases and lines from 3 to 8189 for the normalisation", "why_tests_cant": "The printed tables are only looked at or plotted; rand() chooses other block sizes in each run, and whether the scale of the spectrum is right cannot be seen without an independent computation of the window's transform.", "anchors": ["tests/testresampler.cc:444-636 perform_test", "tests/testresampler.cc:63-81 window_blackman, fft"]}
{"id": "C82", "title": "testsawquality analyses what it says for every frequency it can run with", "statement": "tests/testsawquality.cc prints its usage unless it gets exactly two arguments of which the second is zita or panda. If p * freq is below 24000 for every positive int p, the loop over the partials has undefined behaviour (int overflow): this is so for every frequency that is 0 (also if the argument is no number), negative or below 24000 / (2^31 - 1). For every other frequency mode panda causes no access outside of its arrays, misaligned access or failing assert; its input is the sawtooth with exactly those partials that are below 24000 Hz, and its output is this input resampled to 8 times the rate, tanh (3 x) of it, and this resampled to the original rate. It prints 4097 lines for the frequencies i * 48000 / 8192, exactly also in single precision. In exact arithmetic the number of each line is the amplitude in dB of this part of the windowed output, never below -160 and never above 16.1; for a sine with the frequency of a line it is the amplitude of the sine, and 25/42, 4/42 and 0 of it in the neighbour lines and all others. In single precision no sample of the output is infinite, NaN or above 3.2 for each frequency from 24000 / 2^24 on. Mode zita does the same analysis for what that library returns.", "quantifier": "all arguments, arithmetics, frequencies, addresses, contents of uninitialised memory; all roundings of sin, and of tanh within 2^-22; all amplitudes and phases, lines from 3 to 4093, for the sine", "why_tests_cant": "The program is itself a test whose output is only plotted; nothing checks the scale of its plot, and the behaviour for bad arguments is undefined and can look like a program that does not end.", "anchors": ["tests/testsawquality.cc:15-150"]}
{"id": "C83", "title": "After the input has fallen silent, IIR resamplers fade to almost nothing but never to zero, except with a section added by the vector code; FIR resamplers become zero", "statement": "If the input (samples of size up to 2^100) is zero from some sample on, every output sample of an IIR resampler without vector code, and of one with vector code for the configurations whose stages have even numbers of coefficients (ratio 2 with 96 or 120 dB, ratio 4 with 120 dB), is finite, and after 1500, 2500, 2900, 3900 or 4600 samples at the lower rate (for 48, 72, 96, 120 or 144 dB) all output samples are at most 2^-139 in size, which is far below the smallest normal float; so neither rounding nor the history of the signal can leave an audible rest. But they do not become zero: after a single 1 followed by zeros the upsampler with ratio 2 and 48 dB puts out plus and minus 2^-148 alternatingly forever, from sample 500 on, with and without vector code, so that all further operations work with denormal numbers. With vector code and odd numbers of coefficients the fading does not hold: there is an input of 300002 samples between -1 and 1 after which the upsampler with ratio 2 and 48 dB puts out plus and minus h alternatingly in every second sample, forever, with |h| at least 0.017 (-35 dB), and likewise for the downsampler in every sample, with |h| at least 0.0085. FIR resamplers become exactly silent: with and without vector code, for any input (also NaN and infinities) that is zero from some sample on, all outputs are zero after at most 67 samples at the lower rate (the exact number depends on ratio and precision).", "quantifier": "all input signals that end in silence (up to 2^100 for IIR, all for FIR), all lengths, block sizes, modes, ratios, precisions", "why_tests_cant": "The claim is about all signals and about unlimited time; the decay depends on the rounding of each step of the recursion, and the alternating rest is far below everything that the tests compare.", "anchors": ["include/pandaresampler/pandaresampler.cc: IIRUpsampler2, IIRDownsampler2", "include/pandaresampler/hiir/StageProcFpu.hpp", "include/pandaresampler/hiir/StageProcSseV2.hpp"]}
{"id": "C84", "title": "The whole program testresampler: no undefined behaviour, exit status, termination", "statement": "For every command line, the program testresampler with finite numbers and block sizes below 2^29 makes no access outside an array or through a NULL pointer and no misaligned vector access, and no assert fails except the one about the self test in `testresampler check`. Its exit status is 0 or 1: 0 for all tests that only print, 0 without arguments, 1 for unknown commands. With fair random numbers and frequencies from 0 to 44099 Hz it ends. In exact arithmetic `testresampler check` ends with 0. In single precision the accuracy test ends with 0 for every command line whose frequencies are in the pass band and whose threshold is guaranteed for the precision, for example without options. But `testresampler check` can abort on a correct library: rand() may return numbers for which the self test fails.", "quantifier": "all command lines, all results of rand(), atoi, atof and fft, all uninitialised contents and addresses of arrays, all arithmetics", "why_tests_cant": "The program is the test: nothing tests its own combinations of options, random block sizes and memory layouts.", "anchors": ["tests/testresampler.cc: main", "tests/testresampler.cc: standalone", "tests/testresampler.cc: perform_test", "tests/testresampler.cc: run_testresampler"]}
{"id": "C85", "title": "Upsampling and oversampling lose nothing, downsampling does", "statement": "In exact arithmetic, two different inputs of upsamplers with the same filter, ratio and precision have different outputs. The same is true for upsampling and then downsampling with the same filter, ratio and precision. With binary32 samples it is not: there are two inputs of the same length that differ in the last sample, with the same output of upsamplers with ratio 2, for IIR and for FIR. If with IIR and ratio 2 the input of such a pair is zero from some sample on, the energy of its output comes as close to the energy of its input as wanted, and never exceeds it. For FIR upsamplers, in every arithmetic, two inputs have different outputs if they differ in a sample that has been put out already (sample k, if delay() + ratio * k is below the number of output samples). But for each downsampler with ratio 2, 4 or 8 and for each length (of at least 54 input samples for FIR) there is, in exact arithmetic, an input other than silence whose output is silence; for FIR its first 54 samples are not all zero.", "quantifier": "all inputs, lengths, ratios, precisions, block sizes, addresses, with and without vector code", "why_tests_cant": "A statement about all pairs of signals, and one about a limit; the tests only measure sinusoids.", "anchors": ["include/pandaresampler/pandaresampler.cc: IIRUpsampler2, IIRDownsampler2, FIRUpsampler2, FIRDownsampler2", "include/pandaresampler/hiir/StageProcFpu.hpp"]}
