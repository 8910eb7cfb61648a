{"id": "C01", "title": "build() rejects malformed input with nullptr", "statement": "WavetableData::build returns nullptr, and does nothing else, whenever the span is empty, num_waveforms <= 0, samplerate <= 0, the span size is not a multiple of num_waveforms, or the per-waveform length (between 1 and 2^16 samples) is not a power of two.", "quantifier": "every span content and size, every num_waveforms, every binary32 samplerate and crossfade duration, every resampler behaviour", "why_tests_cant": "the space of sizes, counts and sample rates is unbounded; the tests try a handful of literal sizes", "anchors": ["adwt/wavetable_data.cpp:WavetableData::build", "adwt/maths.hpp:isPowerOfTwo"]}
{"id": "C02", "title": "build() result has the advertised shape", "statement": "For a well-formed request (per-waveform length a power of two from 4 to 2^18, resampler succeeding) build returns a table with num_waveforms waveforms and log2(len)-1 mipmap entries; entry i of every waveform has M, Q, MDiff, QDiff of len/2^i values and a phase grid of len/2^i + 1 values.", "quantifier": "every number of waveforms, every power-of-two length 4..2^18, every sample content, every well-behaved resampler", "why_tests_cant": "tests check three lengths; the intermediate-table logic only starts at lengths above 2048", "anchors": ["adwt/wavetable_data.cpp:WavetableData::WavetableData", "adwt/wavetable_data.cpp:WavetableData::computePhaseVectors", "adwt/crossfading.hpp:CrossFader::computeNumMipMapTables"]}
{"id": "C03", "title": "When build() returns normally and when it does not", "statement": "build() does not always return: for a power-of-two per-waveform length and an otherwise well-formed request, one-sample waveforms throw std::length_error (not caught), two-sample waveforms index an empty vector (assertion failure in debug builds), lengths from 4 to 2^18 return a table or, if the resampler fails, nullptr, and lengths from 2^19 to 2^24 return nullptr. A NaN fade duration is an invalid float-to-int cast.", "quantifier": "every span size / num_waveforms / samplerate", "why_tests_cant": "the failing inputs are isolated lengths nobody tests; absence of failure at all other lengths is a universal claim", "anchors": ["adwt/wavetable_data.cpp:WavetableData::build", "adwt/maths.hpp:isPowerOfTwo", "adwt/crossfading.hpp:CrossFader::computeMipMapScale"]}
{"id": "C04", "title": "The phase grid is exact", "statement": "phases(i)[j] of a built table is the binary32 number equal to j / (len/2^i), with no rounding error, starting at 0 and ending at exactly 1.", "quantifier": "every mipmap entry i and index j of every built table", "why_tests_cant": "exactness of every float in every table is not something sampling establishes", "anchors": ["adwt/wavetable_data.cpp:WavetableData::computePhaseVector"]}
{"id": "C05", "title": "M and Q are the segments of the cyclic piecewise-linear waveform", "statement": "In exact arithmetic, for every segment j of every mipmap entry, M[j]*phase + Q[j] passes through sample j at phase grid point j and through sample j+1 (cyclically) at grid point j+1.", "quantifier": "every waveform content, length, segment, mipmap entry", "why_tests_cant": "quantifies over all real-valued waveforms and all lengths", "anchors": ["adwt/wavetable_data.cpp:computeM", "adwt/wavetable_data.cpp:computeQ", "adwt/wavetable_data.cpp:WavetableData::computeMQVector"]}
{"id": "C06", "title": "MDiff and QDiff describe the jump at the end of each segment, including across the cycle", "statement": "MDiff[j] is the slope change between segment j and the cyclically next one and QDiff[j] the matching intercept change expressed in the unwrapped phase, so QDiff[j] + MDiff[j]*phase(j+1) = 0 for every j (the waveform is continuous, also across the wrap). The header's documented formula M_diff[i] = M[i]-M[i-1] is not what is stored.", "quantifier": "every waveform, length, segment and mipmap entry", "why_tests_cant": "universal over waveforms; the last segment is a special case that random data rarely isolates", "anchors": ["adwt/wavetable_data.cpp:WavetableData::computeMQVector", "adwt/wavetable_data.hpp:WavetableData::mDiff"]}
{"id": "C07", "title": "updateSamplerate keeps the waveforms (exact arithmetic)", "statement": "In exact arithmetic updateSamplerate with any valid sample rate leaves every sample of every waveform, hence every M/Q/MDiff/QDiff/phase table, unchanged, any number of times in a row.", "quantifier": "every table, every sequence of sample rates", "why_tests_cant": "an identity over all waveforms and all update sequences", "anchors": ["adwt/wavetable_data.cpp:WavetableData::updateSamplerate", "adwt/wavetable_data.cpp:WavetableData::rebuildWaveforms"]}
{"id": "C08", "title": "How much updateSamplerate loses per sample (binary32)", "statement": "With IEEE binary32 tables and binary64 intermediates, a sample-rate change is the build of samples that differ from those of the table by at most len/2^22 for waveforms in [-1,1]; so the documented 4e-3 holds for lengths up to 16384. It fails for 32768 and for the documented maximum 65536.", "quantifier": "every binary32 waveform in [-1,1], every power-of-two length, every sample position", "why_tests_cant": "worst-case rounding error over 2^64 sample pairs per position", "anchors": ["adwt/wavetable_data.cpp:WavetableData::rebuildWaveforms", "adwt/wavetable_data.hpp:WavetableData::updateSamplerate", "adwt/wavetable_data.cpp:computeM", "adwt/wavetable_data.cpp:computeQ"]}
{"id": "C09", "title": "Mipmap transition points do not depend on the sample rate", "statement": "In binary32, mipmap entry i ends exactly at phase step 2^(i+1)/len, whatever the sample rate; so updateSamplerate changes only the cross-fade length and restarts the cross-fader.", "quantifier": "every positive binary32 sample rate not close to underflow, every power-of-two length; if the compiler replaces the division by the rate with a product by its reciprocal, every rate r with float(r * float(1/r)) = 1, which all usual rates satisfy and, e.g., 44106 Hz does not", "why_tests_cant": "needs exactness of float computations for every sample rate", "anchors": ["adwt/crossfading.hpp:CrossFader::computeMipMapScale"]}
{"id": "C10", "title": "Mipmap selection never outruns the table", "statement": "For a settled oscillator the entry used for phase step d (0<d<=1/2) is the first entry whose limit exceeds d; in it one output sample advances at most 2 table samples, and for every entry except the first at least 1.", "quantifier": "every binary32 phase step in (0,1/2], every table length", "why_tests_cant": "threshold behaviour at all 2^30 float steps", "anchors": ["adwt/crossfading.hpp:CrossFader::findMipMapIndex", "adwt/wavetable_data.hpp:WavetableData::findMipMapIndices"]}
{"id": "C11", "title": "Cross-fade gains are a convex pair summing to exactly 1", "statement": "Whatever the history of phase steps, both gains returned by findMipMapIndices are in [0,1] and their binary32 sum is exactly 1.0F.", "quantifier": "every cross-fade length >= 1, every finite history of phase steps", "why_tests_cant": "REQUIRE(w0 + w1 == 1.0F) is checked on 1000 random calls; the claim is over all fade lengths and histories and is about float rounding", "anchors": ["adwt/crossfading.hpp:CrossFader::newIndices", "adwt/crossfading.hpp:CrossFader::computeFading"]}
{"id": "C12", "title": "Cross-fade entries are valid and adjacent", "statement": "Whatever the history, the lower entry returned is a valid mipmap index and the upper one is either the next index or equal to the lower with gain 0 on the upper; an upper entry with non-zero gain is a valid index.", "quantifier": "every table, every finite history of phase steps", "why_tests_cant": "state machine over unbounded histories with re-targeting in the middle of a fade", "anchors": ["adwt/crossfading.hpp:CrossFader::newIndices", "adwt/crossfading.hpp:CrossFader::updateIndices"]}
{"id": "C13", "title": "Every cross-fade terminates and settles on the requested entry", "statement": "From any reachable state, if the phase step stays in one octave, after at most 2n+1 calls (n the fade length in samples) the lower entry is the requested one with gain exactly 1, and stays so.", "quantifier": "every reachable state, every fade length n >= 1", "why_tests_cant": "liveness from every reachable state", "anchors": ["adwt/crossfading.hpp:CrossFader::newIndices"]}
{"id": "C14", "title": "The cross-fade is a linear ramp", "statement": "After a fade to an adjacent entry starts, the k-th subsequent call gives the old entry the gain (n-k)/n (correctly rounded) and the new one the complement, k = 0..n, as long as the requested octave is the old or the new one.", "quantifier": "every n >= 1, every k <= n, every sequence of steps within the two octaves", "why_tests_cant": "ramps of arbitrary length and interleaving of the two octaves", "anchors": ["adwt/crossfading.hpp:CrossFader::newIndices", "adwt/crossfading.hpp:CrossFader::computeFading"]}
{"id": "C15", "title": "The README octave rule suffices", "statement": "If the octave of the phase step changes by at most one and never again within a fade length, then the table entry used changes by at most one per sample and each fade completes before the next begins.", "quantifier": "every history of phase steps obeying the README rule", "why_tests_cant": "quantifies over unbounded histories", "anchors": ["adwt/crossfading.hpp:CrossFader::newIndices", "README.md:Limitations"]}
{"id": "C16", "title": "Cross-fade durations that round to zero or negative samples", "statement": "build accepts every crossfade_duration_s, but only durations of at least one sample give finite gains for ever: one that rounds to zero samples makes the first octave change return NaN gains, and a negative one never settles: the requested entry keeps a gain <= 0 and its neighbour a gain >= 1.", "quantifier": "every crossfade duration / sample rate accepted by build", "why_tests_cant": "the boundary is in the parameter space, not in the tests", "anchors": ["adwt/wavetable_data.cpp:WavetableData::build", "adwt/crossfading.hpp:CrossFader::computeFading"]}
{"id": "C17", "title": "The phase step of bidirectional processing is in [-1/2,1/2] and zero only for equal phases", "statement": "For binary32 phases in [0,1) the phase step processed (prevPhaseDiff after the call) is in [-1/2,1/2], congruent to the rounded phase difference, and zero exactly when the phase repeats.", "quantifier": "every pair of binary32 phases in [0,1)", "why_tests_cant": "2^60 pairs; includes float rounding and subnormals", "anchors": ["adwt/adwt.cpp:Oscillator::processBi", "adwt/adwt.hpp:Oscillator::prevPhaseDiff"]}
{"id": "C18", "title": "kForward and kBidirectional agree on forward input", "statement": "For phase sequences whose every wrapped forward step is in (0,1/2), process<kForward> and process<kBidirectionnal> produce identical samples and leave identical oscillators (bit for bit). At a wrapping step of exactly 1/2 they differ.", "quantifier": "every oscillator state, every forward phase sequence of any length", "why_tests_cant": "bit-equality over all sequences", "anchors": ["adwt/adwt.cpp:Oscillator::process"]}
{"id": "C19", "title": "Block size does not matter", "statement": "Processing a phase sequence in one call or split into any blocks yields the same samples and the same final oscillator (bit for bit).", "quantifier": "every sequence, every splitting, both directions, every filter", "why_tests_cant": "all splittings of all sequences", "anchors": ["adwt/adwt.cpp:Oscillator::process"]}
{"id": "C20", "title": "One output per phase, and the getters report the last sample", "statement": "process writes exactly one sample per phase, in order; afterwards prevPhase is the last phase given and prevPhaseDiff the step that led to it; the waveform selection and the table contents are untouched.", "quantifier": "every phase sequence and oscillator state", "why_tests_cant": "frame conditions over all inputs", "anchors": ["adwt/adwt.cpp:Oscillator::processBi", "adwt/adwt.hpp:Oscillator::prevPhase", "adwt/adwt.hpp:Oscillator::crtWaveform"]}
{"id": "C21", "title": "process never leaves its tables (memory safety of every history)", "statement": "Starting from a built table with a fade of at least one sample, any sequence of init, swapWavetable, resetInternals, setWaveform (valid index), updateSamplerate (valid rate) and process calls with phases in [0,1) performs no out-of-bounds access, no integer overflow, no invalid shift or float-to-int conversion, except for the reverse-at-phase-zero access of C22.", "quantifier": "every binary32 history of API calls, every filter, every SIMD width, debug and release", "why_tests_cant": "unbounded histories over 2^30 phases; ASAN only sees the run it is given", "anchors": ["adwt/adwt.cpp:Oscillator::processSampleFwd", "adwt/adwt.cpp:Oscillator::processSampleBwd", "adwt/adwt.cpp:Oscillator::computeISumFwd", "adwt/adwt.cpp:Oscillator::resetInternals"]}
{"id": "C22", "title": "Reverse playback standing on phase 0 followed by a lower mipmap entry", "statement": "Phases in [0,1) alone do not make process safe: it reads outside its tables exactly when the previous step was not forward, it left the oscillator on segment index 0 (for a backward step: exactly on phase 0), and the next step moves to a lower mipmap entry; in every other case it succeeds. Some admissible history does this, for all five filters.", "quantifier": "every history with phases in [0,1)", "why_tests_cant": "needs phase exactly 0, reverse, and an octave change on the next sample", "anchors": ["adwt/adwt.cpp:Oscillator::processSampleBwd", "adwt/adwt.cpp:Oscillator::processSampleFwd"]}
{"id": "C23", "title": "Forward playback is exact antiderivative anti-aliasing", "statement": "In exact arithmetic, a forward sample adds to each complex filter state exactly 2 r times the integral over the sample interval of exp(z(1-u)) times the cyclic linearly-interpolated waveform at the moving phase, and multiplies the old state by exp(z); the output is the real part of the sum.", "quantifier": "every waveform, every reachable oscillator, every forward step in (0,1/2], every filter", "why_tests_cant": "an analytic identity over real inputs; unit tests 'don't check the generated audio content'", "anchors": ["adwt/adwt.cpp:Oscillator::computeI0", "adwt/adwt.cpp:Oscillator::computeISumFwd", "adwt/adwt.cpp:Oscillator::processSampleFwd"]}
{"id": "C24", "title": "Backward playback and direction changes are exact too", "statement": "The same identity as C23 for backward steps in [-1/2,0), and for a step whose direction differs from the previous one, including steps across phase 0.", "quantifier": "every waveform, every reachable oscillator, every backward step or turn (no mipmap change)", "why_tests_cant": "analytic identity with many wrap-around cases", "anchors": ["adwt/adwt.cpp:Oscillator::computeBwdI", "adwt/adwt.cpp:Oscillator::computeISumBwd", "adwt/adwt.cpp:Oscillator::processSampleBwd"]}
{"id": "C25", "title": "Cross-fading mixes the two exact responses", "statement": "While fading, the added term is the gain-weighted sum of the exact integrals of the two adjacent mipmap waveforms; moving up after a forward sample, or down one octave, keeps exactness.", "quantifier": "every reachable oscillator, gains, forward sample history under the README rule", "why_tests_cant": "analytic identity over all crossfade positions", "anchors": ["adwt/adwt.cpp:Oscillator::processSampleFwd", "adwt/adwt.cpp:Oscillator::processSampleBwd"]}
{"id": "C26", "title": "Reverse playback entering a higher mipmap entry", "statement": "The identity of C24 fails on the sample where a reverse-playing oscillator moves to the next higher mipmap entry: the table index is halved downwards, so an odd index lands one segment off. Some admissible history yields a sample that is not the exact response.", "quantifier": "every reachable oscillator with a reverse previous step", "why_tests_cant": "happens on one sample per octave change, for particular table positions", "anchors": ["adwt/adwt.cpp:Oscillator::processSampleBwd", "adwt/adwt.cpp:Oscillator::processSampleFwd"]}
{"id": "C27", "title": "Dropping several octaves at once", "statement": "The identity of C23 fails when the mipmap entry drops by two or more octaves between two samples (the README warns of clicks): some admissible history yields a sample that is not the exact response.", "quantifier": "every reachable oscillator", "why_tests_cant": "depends on particular table positions", "anchors": ["adwt/adwt.cpp:Oscillator::processSampleFwd", "README.md:Limitations"]}
{"id": "C28", "title": "The output is bounded for ever", "statement": "In exact arithmetic, if all samples of all mipmap waveforms are in [-B,B], every output of every history meeting the exactness conditions is bounded by B times the sum of 2|r|/|Re z| over the filter's poles, from a reset oscillator.", "quantifier": "every waveform, every phase history of any length", "why_tests_cant": "BIBO stability is a statement about infinite histories", "anchors": ["adwt/adwt.cpp:Oscillator::processSampleFwd", "adwt/filter_type.hpp:z", "adwt/filter_type.hpp:r"]}
{"id": "C29", "title": "Constant waveforms settle to the filter's DC gain", "statement": "For a constant waveform c the n-th output after a reset is exactly c * Re sum(-(2r/z)(1-exp(nz))), independent of the phases played.", "quantifier": "every c, n, phase history (both directions)", "why_tests_cant": "closed form for all n and all phase sequences", "anchors": ["adwt/adwt.cpp:Oscillator::processSampleFwd", "adwt/adwt.cpp:Oscillator::processSampleBwd"]}
{"id": "C30", "title": "The oscillator is linear in the waveform", "statement": "In exact arithmetic the output for the table a*x + b*y is a times the output for x plus b times the output for y under the same phase history.", "quantifier": "all pairs of waveforms, scalars, histories", "why_tests_cant": "universal algebraic law", "anchors": ["adwt/adwt.cpp:Oscillator::computeI0", "adwt/adwt.cpp:Oscillator::computeISumFwd", "adwt/wavetable_data.cpp:WavetableData::computeMQVector"]}
{"id": "C31", "title": "SIMD width and padding do not matter", "statement": "In exact arithmetic the samples produced are the same for every SIMD batch width, and lanes beyond the filter's order never influence them; every batch load and store is within the padded arrays.", "quantifier": "every batch width >= 1, every filter order, every state", "why_tests_cant": "each build only exercises the width of its machine", "anchors": ["adwt/adwt.hpp:Oscillator::computeUpperNumCoeffs", "adwt/adwt.cpp:Oscillator::computeI0", "adwt/adwt.cpp:Oscillator::computeISumFwd"]}
{"id": "C32", "title": "Half the poles suffice", "statement": "The output computed from one pole of each conjugate pair equals the (real) response of the full-order filter with all conjugate poles and residues.", "quantifier": "every filter, every state sequence", "why_tests_cant": "algebraic identity over all states", "anchors": ["adwt/adwt.cpp:Oscillator::processSampleFwd", "adwt/filter_type.hpp:FilterType"]}
{"id": "C33", "title": "Every shipped filter is stable with DC gain close to 1", "statement": "All poles of all five filters have strictly negative real part and a non-zero square, their residue and pole lists have equal length, and the DC gain of each is within 1e-2 of 1.", "quantifier": "all five filters (finite)", "why_tests_cant": "coefficients are literals; stability is what every unbounded run relies on", "anchors": ["adwt/filter_type.hpp:z", "adwt/filter_type.hpp:r"]}
{"id": "C34", "title": "init and swapWavetable hand over ownership correctly", "statement": "init(nullptr) returns non-zero and changes nothing; init with a table returns 0; swapWavetable(nullptr) returns nullptr and changes nothing; swapWavetable(t) returns precisely the previously loaded table and loads t, selecting waveform 0 and clearing the filter memory.", "quantifier": "every oscillator state, every table", "why_tests_cant": "all states, including never-initialised and mid-fade", "anchors": ["adwt/adwt.cpp:Oscillator::init", "adwt/adwt.cpp:Oscillator::swapWavetable"]}
{"id": "C35", "title": "resetInternals forgets the past", "statement": "After resetInternals(p,d) everything produced later depends only on p, d, the table (with its cross-fader) and the selected waveform, not on anything processed before.", "quantifier": "every pair of histories, every continuation", "why_tests_cant": "noninterference over pairs of histories", "anchors": ["adwt/adwt.cpp:Oscillator::resetInternals"]}
{"id": "C36", "title": "Waveforms are isolated from each other", "statement": "The samples produced while waveform w is selected do not depend on the contents of the other waveforms of the table; setWaveform takes effect from the next sample and leaves the filter memory alone.", "quantifier": "every table pair agreeing on w, every history", "why_tests_cant": "noninterference over all tables", "anchors": ["adwt/adwt.hpp:Oscillator::setWaveform", "adwt/adwt.cpp:Oscillator::computeI0"]}
{"id": "C37", "title": "updateSamplerate with an unacceptable rate", "statement": "updateSamplerate (of the table and of the oscillator) with a non-positive rate dereferences a null pointer, whatever the table. When Oscillator::updateSamplerate succeeds, the table it installs is built with the 5 ms fade, whatever duration the table was built with.", "quantifier": "every table, every non-positive rate", "why_tests_cant": "error path never tested", "anchors": ["adwt/wavetable_data.cpp:WavetableData::updateSamplerate", "adwt/adwt.hpp:Oscillator::updateSamplerate"]}
{"id": "C38", "title": "The maths helpers meet their names", "statement": "For every binary32 x in int range floor/ceil return the mathematical floor/ceiling with no overflow; reduce maps [-t,2t) into [0,t) for ints; reduce(x,1) of a phase in [0,1] is in [0,1) and exact; sign is the sign except that subnormals give 0; isOdd is wrong on negative odds; isPowerOfTwo is right up to 2^16.", "quantifier": "every binary32 / int argument in the stated ranges", "why_tests_cant": "2^32 arguments and library log2f", "anchors": ["adwt/maths.hpp:floor", "adwt/maths.hpp:ceil", "adwt/maths.hpp:reduce", "adwt/maths.hpp:sign", "adwt/maths.hpp:isOdd", "adwt/maths.hpp:isPowerOfTwo"]}
{"id": "C39", "title": "Repeating a phase", "statement": "Two equal consecutive phases are not accepted: a debug build fails an assertion, for every oscillator, table and filter; a release build divides by the zero step and some such sequence (the all-zero phase block of the README example) outputs NaN.", "quantifier": "every sequence with a repeated phase", "why_tests_cant": "needs the exact repetition, and release semantics", "anchors": ["adwt/adwt.cpp:Oscillator::processBi", "adwt/adwt.cpp:Oscillator::computeISumFwd", "README.md"]}
{"id": "C40", "title": "A NaN state is absorbing until reset", "statement": "Once a filter state is NaN every later output is NaN, for any phases, until resetInternals, init or swapWavetable, after which the past NaN has no influence.", "quantifier": "every history after a NaN", "why_tests_cant": "unbounded histories", "anchors": ["adwt/adwt.cpp:Oscillator::processSampleFwd", "adwt/adwt.cpp:Oscillator::resetInternals"]}
{"id": "C41", "title": "Work per sample is bounded", "statement": "Counting the segment boundaries a sample walks over on the (at most two) table entries it plays: in any history fewer than the base waveform length on each; once 2n+1 samples stayed in one octave (n: fade in samples) at most 2 on one entry and none on another, whatever the frequency, direction and table size; following the README's rule forward at most 4 and 2. Outside that rule a sample with a tiny step may cost almost a whole turn of the table (reversing with a drop of two octaves).", "quantifier": "every history of calls, phase, step below half a cycle, filter, SIMD width, table size", "why_tests_cant": "real-time bound over all inputs and all earlier histories", "anchors": ["adwt/adwt.cpp:Oscillator::computeISumFwd", "adwt/adwt.cpp:Oscillator::computeISumBwd", "adwt/crossfading.hpp:CrossFader::findMipMapIndex"]}
{"id": "C42", "title": "Playing a mirrored waveform backward equals playing it forward", "statement": "In exact arithmetic the response to the time-mirrored waveform along mirrored phases equals the response to the waveform along the original phases.", "quantifier": "every waveform and exact-condition history", "why_tests_cant": "symmetry over all histories", "anchors": ["adwt/adwt.cpp:Oscillator::processSampleBwd", "adwt/adwt.cpp:Oscillator::processSampleFwd"]}
{"id": "C43", "title": "The wrap-around point is not special", "statement": "In exact arithmetic, rotating the waveform by k samples and the phases by k/len leaves the output unchanged.", "quantifier": "every waveform, rotation, exact-condition history", "why_tests_cant": "symmetry over all rotations; catches wrap-around special cases", "anchors": ["adwt/adwt.cpp:Oscillator::computeISumFwd", "adwt/adwt.cpp:Oscillator::computeISumBwd", "adwt/wavetable_data.cpp:WavetableData::computeMQVector"]}
{"id": "C44", "title": "A mipmap entry is the table of its resampled waveform", "statement": "In binary32, the M, Q, MDiff, QDiff and phase tables of mipmap entry k of waveform i are, bit for bit, those of entry 0 of the table one would build from entry k's samples alone: the third of five periods the resampler returns for the waveform (in two stages beyond a ratio of 256).", "quantifier": "every waveform content, every resampler behaviour, every entry of every length up to 2^18", "why_tests_cant": "ranges over all tables and resampler answers; tests compare a few literals", "anchors": ["adwt/wavetable_data.cpp:WavetableData::WavetableData", "adwt/wavetable_data.cpp:WavetableData::downsampleWaveform", "adwt/wavetable_data.cpp:WavetableData::computeMQVector"]}
{"id": "C45", "title": "The Butterworth filters are Butterworth filters", "statement": "FilterType::kType1, kType3 and kType4 are analog Butterworth filters of order 2, 4 and 6 with cut-off at 0.45 of the sample rate: at every frequency the squared gain is 1/(1+(f/0.45)^(2 order)) to within 1e-7; the gain is what a steady tone of any phase is multiplied by once the transient is over.", "quantifier": "every frequency, every tone phase, the three filter types", "why_tests_cant": "a continuum of frequencies; a wrong digit in a pole or residue changes the sound, not any API result", "anchors": ["adwt/filter_type.hpp:r", "adwt/filter_type.hpp:z", "adwt/filter_type.hpp:FilterType"]}
{"id": "C46", "title": "The Chebyshev filters miss their constant term", "statement": "FilterType::kType2 and kType5 are the documented Chebyshev type 2 filters (order 10 and 8, stop band from 0.61 of the sample rate, 60 dB) minus the constant 0.001 the recipe in filter_type.hpp throws away: at every frequency the squared modulus of transfer + 0.001 is the textbook value to within 1e-7. As shipped the stop band is not 60 dB down (gain above 0.0019 somewhere in it) but at least 53 dB everywhere above 0.61, and the pass band (0.40 and 0.33 of the sample rate) is flat to one percent.", "quantifier": "every frequency, both filter types", "why_tests_cant": "a continuum of frequencies", "anchors": ["adwt/filter_type.hpp:r", "adwt/filter_type.hpp:z", "adwt/filter_type.hpp:FilterType"]}
{"id": "C47", "title": "In binary32 the stored segments follow the waveform to within a bound proportional to the table length", "statement": "For a table as built (and played any number of times), in the library's single-precision arithmetic, take an entry of len samples that are finite and at most 2^b in size (|b| <= 64). Every stored slope, intercept and difference is finite; over the phases of segment j the stored line m*t+q stays within 2.5 * 2^b * len / 2^24 of the straight line between samples j and j+1; and the stored jump qDiff + mDiff * (end phase), 0 in exact arithmetic, is at most 13 * 2^b * len / 2^24. For 2048 samples in [-1,1] the lines are within 3.1e-4.", "quantifier": "all tables, entries, segments, phases of the segment, sample values, amplitudes 2^-64..2^64, histories of playing", "why_tests_cant": "tests compare a few waveforms at their grid points with a fixed tolerance; the error grows with the length, the position in the table and the slope, and holds between the points too", "anchors": ["adwt/wavetable_data.cpp:WavetableData::computeMQVector", "adwt/wavetable_data.cpp:computeM", "adwt/wavetable_data.cpp:computeQ"]}
{"id": "C48", "title": "Repeated sample-rate changes lose at most len/2^21 each", "statement": "In single precision, a table built from waveforms of len samples in [-1,1], then played and re-sampled n times in any order, is the table that build makes of samples that are finite and within n*len/2^21 of the original ones, as long as that is at most 1.", "quantifier": "all waveforms in [-1,1], all lengths, all numbers n of changes with n*len/2^21 <= 1, all histories of playing and re-sampling", "why_tests_cant": "a test does one or two changes; the accumulation over any number of them is an induction", "anchors": ["adwt/wavetable_data.cpp:WavetableData::updateSamplerate", "adwt/wavetable_data.cpp:WavetableData::rebuildWaveforms", "adwt/wavetable_data.cpp:WavetableData::build"]}
{"id": "C49", "title": "Each harmonic comes out multiplied by the filter's gain at its own frequency", "statement": "In exact arithmetic, after any history of calls the reference model covers, play phases that move at a constant step d (forwards, backwards or bidirectional). If the waveform of the mipmap entry for that step is within eps of a sum of harmonics a cos(2 pi k x + phi), the samples returned tend to the sum over the harmonics of the tone of frequency k d multiplied by the filter's transfer function at k d, within eps times the gain bound of the filter plus any delta. Through kType2 or kType5 the harmonics at or above 0.61 of the sample rate together add at most 0.00205 of their amplitudes (aliasing is suppressed). For a table loaded with samples of the sum and played at less than two of its samples per output sample, eps is at most the sum of |a| (2 pi k / len)^2 / 8.", "quantifier": "all waveforms, harmonics, steps, directions, earlier histories, stable filters, and all samples after some number", "why_tests_cant": "a limit over unbounded time and a continuum of steps and frequencies; a test hears one waveform at a few frequencies with a tolerance", "anchors": ["adwt/adwt.cpp:Oscillator::process", "adwt/adwt.cpp:Oscillator::processSampleFwd", "adwt/adwt.cpp:Oscillator::processSampleBwd", "adwt/filter_type.hpp:FilterType"]}
{"id": "C50", "title": "Rounding errors never build up: each sample stays within a fixed distance of the ideal, for ever", "statement": "In single precision, for every history of calls covered by the ideal description (load or swap any tables whose samples and slopes are at most 2^c, play blocks in any direction, fades, octave moves the library can follow, turns, resets, waveform selections, sample-rate changes, any number of them), no fault occurs and every sample returned is a finite number within A(f) * 2^c / 2^24 of the ideal output: the table's waveform, read at a phase moving at constant speed between the phases given, filtered by the exact continuous-time filter and sampled, with no rounding. A(f) is 530, 11800, 1360, 3560, 6320 for the five filters, independent of the length of the history. Forward play obeying the README's rule on octave changes, and play in any direction inside one octave once settled, are covered.", "quantifier": "all histories of any length, tables, phases, directions, filters, batch widths, amplitudes 2^-64..2^64, and all exponentials accurate to 8 units in the last place", "why_tests_cant": "unbounded histories with feedback: an error could grow too slowly for any test to see; the bound is over all waveforms and phases", "anchors": ["adwt/adwt.cpp:Oscillator::process", "adwt/adwt.cpp:Oscillator::processSampleFwd", "adwt/adwt.cpp:Oscillator::processSampleBwd", "adwt/adwt.cpp:Oscillator::computeI0", "adwt/filter_type.hpp:FilterType"]}
{"id": "C51", "title": "The level is bounded for ever in single precision", "statement": "In the histories of C50 no sample returned is ever NaN or infinite, and none exceeds (G(f) + 0.001) * 2^c in magnitude, with G(f) = 4.7, 127.3, 11.8, 30.6, 58.3 for the five filters, where 2^c bounds the samples and the slopes (per unit of phase) of the tables.", "quantifier": "as C50", "why_tests_cant": "as C50: overflow or drift after arbitrarily many samples", "anchors": ["adwt/adwt.cpp:Oscillator::process", "adwt/filter_type.hpp:FilterType"]}
{"id": "C52", "title": "Phases outside [0,1)", "statement": "The library asks for phases in [0,1), but phases of [-1,2) work, except negative ones from -2^-25 on: a history with such phases is as safe as one of C21 (in single precision no undefined behaviour, no failed assertion), unless a step that is not forward lands on the start of the cycle (C22). In exact arithmetic only the position in the cycle matters: replacing every phase by its fractional part changes no sample, step or fault as long as consecutive phases are less than 3/2 apart (kForward: less than 1). In single precision a forward sample at phase 1 is, bit for bit, the sample at phase 0, and the step after it is within 2^-25 of the step from 0. Not so for the phases left out: a phase of -2^-26 reached and left by forward steps makes the next sample read past the end of the phases when the octave drops (C52_tiny_negative_refuted).", "quantifier": "every history of calls with phases of [-1,2) other than [-2^-25,0), both directions, all filters, debug and release", "why_tests_cant": "phases come from the caller's accumulator, whose rounding decides whether 1, or a tiny negative number, ever shows up", "anchors": ["adwt/adwt.cpp:Oscillator::process", "adwt/adwt.cpp:Oscillator::resetInternals", "tests/tones_generator.cpp:generateTonePhase"]}
{"id": "C53", "title": "Phase accumulators in single precision are fit to be played", "statement": "A phase accumulated as phase = fmod(phase + step, 1) in single precision, as the repository's own generators do, with steps (constant or varying) between 2^-23 and 1/2 - 2^-23 of a cycle: every phase is in [0,1), the step the oscillator computes from two consecutive phases is forward, at most half a cycle and within 3/2^25 of the step asked for, in both modes; after n updates the phase is within n/2^24 of the exact one, up to whole cycles; playing the phases never leads to undefined behaviour or a failed assertion, and a constant step 2^-23 away from the limits of its octave is played with the accuracy of C50 for ever. With negative steps the phases are in (-1,0], none between -2^-23 and 0, and the steps are backward. Shorter steps can stall: from phase 1/2, steps of 2^-26 or less never move (C53_stall_refuted).", "quantifier": "every starting phase, every list of steps in the range, any number of updates, both directions", "why_tests_cant": "rounding of the accumulator decides whether the phase ever reaches 1, repeats itself or goes the wrong way; tests accumulate one second at a few frequencies", "anchors": ["tests/tones_generator.cpp:generateTonePhase", "tests/sweep_generator.cpp:generateLinearSweepPhase", "tests/sweep_generator.cpp:generateExpSweepPhase", "adwt/adwt.cpp:Oscillator::process"]}
{"id": "C54", "title": "Any sequence of tones, forward and backward", "statement": "The repository's tone generator -- init with the default state, then for each tone resetInternals(0, step) and one block of accumulated phases, the step being positive or negative -- never leads to undefined behaviour or a failed assertion and returns one sample per phase, for any number of tones of any length not below the fade, each 2^-23 away from the limits of its octave, provided the first tone does not use the second highest entry of the table. Positive tones are safe without these conditions. The exception is real (C54_first_tone_refuted): the fade started by init's default step of 0.4 is first completed and then turned back, and a first tone of negative frequency that stands on phase 0 at that moment makes the library read out of bounds.", "quantifier": "every table, every list of tones (step, number of samples), all filters, debug and release", "why_tests_cant": "the outcome depends on the state of the cross-fader left by all previous tones and on the rounding of the accumulated phases", "anchors": ["tests/tones_generator.cpp:generateTone", "tests/tones_generator.cpp:main", "adwt/adwt.cpp:Oscillator::resetInternals", "adwt/crossfading.hpp:CrossFader::newIndices"]}
{"id": "C55", "title": "The floating-point output of an evenly paced block is the filtered harmonics of its table entry", "statement": "In single precision: once the oscillator plays at an even pace d (phases within eta of q + n d, as accumulated phases are), the returned samples are, from some sample on, the steady response of the filter to the harmonics of the table entry in use (each harmonic k times its gain at frequency k d), up to (the distance between the table entry's line graph and the harmonics + pace error times slope) times the filter's gain, the rounding bound of C50, and any delta > 0. After wt build, init and one forward block this holds with no further hypothesis on states. A table whose entries are all constant v gives v times the filter's dc step response, within the rounding bound, over every history of blocks and waveform changes, from the first sample on.", "quantifier": "all tables within the slope bound, all filters, all harmonics lists, all paces below half a cycle per sample, all lengths of blocks, every libm with an accurate exponential", "why_tests_cant": "the claim is about the limit of arbitrarily long blocks and about accumulated rounding in a recursive filter", "anchors": ["adwt/adwt.cpp:Oscillator::process", "adwt/adwt.cpp:Oscillator::processSampleFwd", "adwt/filter_type.hpp:CoeffsComplex"]}
{"id": "C56", "title": "What was selected before is forgotten geometrically", "statement": "Let two programs make the same calls except for the waveforms they select, then select the same waveform and go on with the same calls (blocks in any direction, fades, resets, loads, sample-rate changes). In exact arithmetic, for any filter whose poles satisfy |exp z| <= theta, the n-th samples after that selection (n = 0, 1, ...) differ by at most 2 B G theta^(n+1), B bounding the table samples and G the filter's gain bound; theta = 3/4 for the shipped filters, so a waveform switch is complete, to one part in 10^6 of the gain bound, within 50 samples. In single precision the difference is at most (2 G(f) (3/4)^(n+1) + 2 A(f)/2^24) 2^c with the constants of C50 and C51.", "quantifier": "all pairs of histories covered by the ideal descriptions of C23 and C50, all tables, selections, continuations and all n", "why_tests_cant": "the state left behind by a selection is in the filter memory and could linger; the claim is about every history and every later sample", "anchors": ["adwt/adwt.hpp:Oscillator::setWaveform", "adwt/adwt.cpp:Oscillator::process", "adwt/filter_type.hpp:FilterType"]}
{"id": "C57", "title": "The two spans of process", "statement": "process reads its phases and writes its samples through two spans of the caller's memory. If the output span starts at or before the phase span, or after its end (separate buffers, in place, or overlapping from below), the samples and the oscillator are those obtained with separate buffers, and nothing outside the output span changes. If the output span starts inside the phase span, samples are played as phases: the result is that of the phase span as found afterwards (C57_one_behind shows that it differs). Spans of different sizes stop a debug build; a release build plays as many phases as both spans hold and leaves the rest of the output alone.", "quantifier": "all memories, all positions and sizes of the two spans, all oscillator states, both directions, every number system", "why_tests_cant": "every overlap of two spans of any size is a different input; tests use two separate vectors of one size", "anchors": ["adwt/adwt.cpp:Oscillator::processFwd", "adwt/adwt.cpp:Oscillator::processBi", "adwt/adwt.hpp:Oscillator::process"]}
{"id": "C58", "title": "What is not checked always ends badly", "statement": "Breaking the rules of C21 is never silently harmless. Before a table is handed over, a debug build stops at any call but a null init or swap, and a release build dereferences a null pointer at the first call that looks at the table (resetInternals, updateSamplerate, numWaveforms, a non-empty block). Selecting a waveform outside [0, numWaveforms) is accepted, and every block that could have been played then reads out of bounds, until another selection. In single precision, a block that reaches a phase that is NaN, infinite, at least 3 or below -2 never returns normally, after any careful history: an assertion fails in a debug build, an invalid conversion or index occurs in a release build. A NaN or infinite starting phase never returns from init, swapWavetable or resetInternals. A debug build stops at every phase outside [-1,2], in a block or as a starting phase.", "quantifier": "all call sequences without a table; all oscillator states, tables, waveform numbers and playable blocks; all careful histories, blocks, positions in the block and such phases, debug and release", "why_tests_cant": "misuse has no expected output to test; that none of it goes unnoticed is a statement about all states", "anchors": ["adwt/adwt.hpp:Oscillator::setWaveform", "adwt/adwt.cpp:Oscillator::process", "adwt/adwt.cpp:Oscillator::resetInternals", "adwt/adwt.hpp:Oscillator::updateSamplerate", "adwt/maths.hpp:reduce"]}
{"id": "C59", "title": "What folds back is only what the filter lets through", "statement": "Play a table entry whose waveform is within eps of a sum of harmonics at a constant step d. After a while the returned samples are the filtered harmonics below c cycles per sample, up to eps times the filter's gain bound, any delta, and at most G times the amplitudes of the harmonics at or above c, where G is fixed by the filter's design: sqrt(1/(1+(c/0.45)^(2n)) + 10^-7) for the Butterworth types (n = 2, 4, 6) and any c > 0, 0.00205 for types 2 and 5 and c >= 0.61. The same holds in single precision with the rounding bound of C50 and the pace error added. A harmonic an entry can hold (at most half its length in periods) stays below one cycle per sample in the octave the entry serves, except for the last entry, so those from 1/2 to c come back above 1 - c and nothing else comes back.", "quantifier": "all filters, cut-offs c, harmonics, steps, directions, earlier histories, both arithmetics, all samples after some number", "why_tests_cant": "a bound on a limit over unbounded time and a continuum of frequencies; a test measures one spectrum with a window", "anchors": ["adwt/adwt.cpp:Oscillator::process", "adwt/filter_type.hpp:FilterType", "adwt/crossfading.hpp:CrossFader::findMipMapIndex"]}
{"id": "C60", "title": "Inverted samples give the inverted output, exactly", "statement": "Two scripts of calls are the same but for the tables they load: where the first loads a table made of samples xs, the second loads one made of -xs. Then build accepts both or neither, both scripts end in the same failure or both succeed, and the second's returned floats are the first's negated, bit for bit up to the sign of a zero (NaN where the other is NaN). In particular tables of zeros give zeros (or NaN), never a stray non-zero sample.", "quantifier": "all samples (NaN and infinities included), phases, call sequences (misuse included), filter coefficients, SIMD widths, build modes, libm, choices of fused products and orders of the pole sum; all resamplers that treat -xs as they treat xs", "why_tests_cant": "exact symmetry of rounding over every input and history, whatever instructions the compiler selects; a test compares a few renderings of one binary", "anchors": ["adwt/adwt.cpp:Oscillator::process", "adwt/wavetable_data.cpp:WavetableData::build", "adwt/maths.hpp:computeM", "adwt/maths.hpp:computeQ"]}
{"id": "C61", "title": "The same program sounds the same on every machine", "statement": "Two machines execute the same calls: build tables from the same samples, init or swapWavetable, reset, select waveforms, process blocks of phases in both directions. They may differ in SIMD width, math library (exponentials accurate to 8 units in the last place of the modulus), fused multiply-adds, the compiler's choice of fused products and order of the pole sum, debug or release. If the calls are of those described by C50 (for instance forward play by the README's rule), both succeed and their returned samples differ by at most twice C50's bound, sample by sample and for ever; in particular the differences do not build up.", "quantifier": "all pairs of machines in that sense, all filters, sample rates as in C09, samples with bounded slopes, calls and lengths of histories", "why_tests_cant": "a statement about every pair of builds and histories of unbounded length; a test compares two binaries on one file", "anchors": ["adwt/adwt.cpp:Oscillator::process", "adwt/adwt.hpp:Oscillator", "adwt/wavetable_data.cpp:WavetableData::build"]}
{"id": "C62", "title": "updateSamplerate makes the sound fade again", "statement": "Oscillator::updateSamplerate is not neutral, even when given the rate the table already has: the next requests are served as after a jump from the octave of phase step 0.1. If the steps are in another octave r, the first sample is made entirely of the neighbouring mipmap entry on the side of 0.1's octave, and the gain returns linearly to entry r over the samples of the default fade; if the steps are in 0.1's own octave the entries are unaffected. In exact arithmetic the next sample after any history is the filtered neighbour entry, and there is a waveform for which an oscillator that is silent emits more than 1/10 after a redundant updateSamplerate.", "quantifier": "every reachable table, new rate and fade, any number of requests in any octave (binary32); every history of calls followed by updateSamplerate and a forward sample (exact arithmetic)", "why_tests_cant": "depends on the cross-fader state after arbitrary histories; a test that re-samples only at start-up never sees it", "anchors": ["adwt/wavetable_data.cpp:WavetableData::updateSamplerate", "adwt/crossfading.hpp:CrossFader::CrossFader", "adwt/adwt.hpp:Oscillator::updateSamplerate"]}
{"id": "C63", "title": "Slightly different phases and samples give slightly different output", "statement": "Two programs make the same calls: load tables, reset, select waveforms, change the sample rate, process blocks in both directions. Their phases are at most eps of a cycle apart on the circle (eps < 1/8), corresponding steps lie in the same octave and direction, and corresponding mipmap entries differ by at most delta per sample; no waveform of the first is steeper than S per cycle. If both are among the calls described by C23, both are heard as described and the outputs differ by at most (S eps + delta) times the filter's gain bound, sample by sample and for ever: the differences of phases, although each enters the next step as well, do not accumulate. In single precision, with the same tables on both sides and histories of C50, samples and slopes up to 2^c: the returned samples differ by at most (loudest(f) eps + 2 accuracy(f)/2^24) 2^c.", "quantifier": "all pairs of such programs, all filters that decay, tables, resamplers, lengths of history, eps below 1/8, delta and S; in exact arithmetic and (delta = 0) in binary32", "why_tests_cant": "stability under perturbation of every input of a history of unbounded length; a test perturbs one", "anchors": ["adwt/adwt.cpp:Oscillator::process", "adwt/adwt.hpp:Oscillator", "adwt/filter_type.hpp:FilterType"]}
{"id": "C64", "title": "A release build may pause", "statement": "In a release build the caller may stand still: give the same phase again, any number of times, in a block of either direction, anywhere in a history that has settled in the lowest octave. As long as that phase is not a grid point of the mipmap entry being read, and the first movement after the pause is forward, every sample is exactly what the ideal oscillator returns whose filter is fed with the waveform's value at the held phase; the pause leaves no trace in what follows. A pause that lasts settles: the output tends to the waveform's value at the held phase times the filter's gain at frequency 0. If the first movement after the pause goes back, the sample is the ideal one plus the click that the bend of the waveform at the next grid point above the held phase makes, although the movement does not reach it; with the smallest filter this is at least 1/100 of that bend. In binary32 the same histories (first movement after a pause forward) stay, however long, within the accuracy of C50 of the ideal, and a lasting pause settles to within that accuracy of the same value. (A debug build stops at the first repeated phase, C58; a pause on a grid point yields NaN, C39.)", "quantifier": "all tables, resamplers, filters given by poles and residues, SIMD widths, histories of blocks with pauses of any number and length; exact arithmetic, and binary32 for the shipped filters, all rounding orders and conforming math libraries", "why_tests_cant": "infinitely many places and lengths of pauses, and a limit in the number of samples", "anchors": ["adwt/adwt.cpp:Oscillator::process", "adwt/adwt.cpp:Oscillator::processFwd", "adwt/adwt.cpp:Oscillator::processBi", "adwt/wavetable_data.hpp"]}
{"id": "C65", "title": "The sample rate matters only through the length of the cross-fade", "statement": "Once a sample rate is accepted it has no influence of its own: two requests to build from the same samples, or two calls to updateSamplerate of the same table in use, at usable rates whose fades have the same number of samples give the very same table (or fail alike), so whole histories that differ in this way behave identically, sample by sample and fault by fault. If the fades differ in length, the samples are still the same as long as every step stays in the octave of step 0.1, where a fresh table stands; and in any other octave they are the same again, after a reset, once both fades are over: as many samples asked for in that octave as the longer fade has.", "quantifier": "all samples, usable rates and fades, tables in use, histories before and after, directions, filters, SIMD widths, debug and release, compilers' contractions; binary32", "why_tests_cant": "an equality of outputs over all histories and all pairs of rates; the rate enters the scale of every mipmap entry through rounded operations", "anchors": ["adwt/crossfading.hpp:CrossFader::computeMipMapScale", "adwt/crossfading.hpp:CrossFader::CrossFader", "adwt/wavetable_data.cpp:WavetableData::build", "adwt/wavetable_data.cpp:WavetableData::updateSamplerate", "adwt/adwt.cpp:Oscillator::updateSamplerate"]}
{"id": "C66", "title": "Only the mipmap entry of the octave played is heard", "statement": "Take two tables built in any way -- from other samples, with another resampler, at another rate, with another fade -- that hold the same samples in the mipmap entry of one octave. As long as every step stays in that octave, an oscillator plays exactly the same samples from both, or fails in the same way, whatever their other entries hold: from the start if that octave is the one of step 0.1, where a fresh table stands, and in any other octave after a reset once both fades are over. In particular what the resampler returned is never heard in the lowest octave, whose entry is the waveform as given.", "quantifier": "all samples, resamplers, usable rates and fades, octaves, histories, directions, filters, SIMD widths, debug and release, compilers' contractions; binary32", "why_tests_cant": "an equality of outputs over all histories and over everything the unused entries could hold", "anchors": ["adwt/crossfading.hpp:CrossFader::newIndices", "adwt/adwt.cpp:Oscillator::processSampleFwd", "adwt/adwt.cpp:Oscillator::processSampleBwd", "adwt/wavetable_data.cpp:WavetableData::computeMQVector", "adwt/wavetable_data.hpp"]}
{"id": "C67", "title": "The place of a waveform in its set does not matter", "statement": "Two sets of waveforms of the same length may share some of their waveforms, in any places and in any number; two tables are built from them at the same rate and with the same fade. Load the one or the other and make the same calls, as many as you like -- resets, changes of the sample rate, blocks in both directions, selections of shared waveforms, each under the number its set has for it: the samples returned are exactly the same, or the same fault occurs. In particular a waveform played out of a set sounds exactly like a table built from that waveform alone.", "quantifier": "all sets of waveforms, resamplers that never fail, rates and fades build accepts, histories, phases and steps (also those that fault), filters, SIMD widths, debug and release, compilers' contractions; binary32", "why_tests_cant": "an equality of outputs over all histories and all ways two sets can share waveforms", "anchors": ["adwt/wavetable_data.cpp:WavetableData::build", "adwt/wavetable_data.cpp:WavetableData::rebuildWaveforms", "adwt/wavetable_data.hpp:WavetableData::waveformLen", "adwt/adwt.hpp:Oscillator::setWaveform", "adwt/adwt.cpp:Oscillator::process"]}
{"id": "C68", "title": "An oscillator forgets what it played", "statement": "Two oscillators hold tables of the same samples, whatever their cross-fades, filters and phases were left doing by what they played before: other octaves, other directions, interrupted fades. Let each be asked for samples of one octave -- the same for both -- in blocks of any sizes and with whatever resets, until the samples asked number more than twice the length of its fade. After that the pasts can no longer be told apart: select the same waveform, reset both to the same phase and step, and the same calls within that octave return exactly the same samples, or the same fault.", "quantifier": "all tables in use, pairs of fade lengths of at least one sample, pairs of pasts, states of the two oscillators, octaves, calls, phases and steps (also those that fault), filters, SIMD widths, debug and release, compilers' contractions; binary32", "why_tests_cant": "a convergence of all pasts: two arbitrary states must become indistinguishable after a bounded number of requests", "anchors": ["adwt/crossfading.hpp:CrossFader::newIndices", "adwt/adwt.cpp:Oscillator::process", "adwt/adwt.cpp:Oscillator::resetInternals", "adwt/wavetable_data.hpp:WavetableData::findMipMapIndexes"]}
