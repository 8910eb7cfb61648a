# Formal model of libadawata in Rocq (Coq 8.16.1)

## 1. Shape of the model

One model, two number systems. Every function of `adwt/*.hpp|cpp` that computes
something is transcribed once, as a total computable Gallina function, over a
record `Num` of the float/double operations the C++ uses (`+ - * /`, comparisons,
`int`<->`float` conversion, `fabs`, `signbit`, `log2`, complex `exp`).
The record is instantiated twice:

* `B32 lm` -- Flocq's executable IEEE-754 `binary_float 24 128` for `float` and
  `binary_float 53 1024` for `double`, round-to-nearest-even.  `lm` is an oracle for
  libm (`log2f`, complex `exp`), about which a theorem assumes only what it says.
* `RNum` -- the real numbers, for the statements that are about the mathematics
  ("the output is the ADAA integral").

Undefined behaviour is a distinct outcome: functions return `res A = Ok a | Fault f`
with `f` one of out-of-bounds, null dereference, signed overflow, invalid shift,
float-to-int conversion out of range, failed assertion (debug builds only),
`std::length_error`, `std::runtime_error`.

The resampler (`src_simple`) is an oracle `src`; its answer (error code, frames used,
frames generated, data) is arbitrary, the code's own checks are modelled.

## 2. Files (rocq/theories)

Model (every definition cites the lines of /repo it transcribes):

| file | content |
| --- | --- |
| `Num.v` | `res` monad, checked ints, `Num` record, complex arithmetic |
| `Maths.v` | maths.hpp |
| `CrossFader.v` | crossfading.hpp |
| `Wavetable.v` | wavetable_data.hpp/.cpp |
| `Filters.v` | filter_type.hpp |
| `Osc.v` | adwt.hpp/.cpp |
| `Work.v` | Osc.v again with counters in the two boundary loops (C41; proved to run identically) |
| `Mem.v` | the loops of process on two windows of one memory (C57) |
| `B32.v`, `RNum.v` | the two number systems |

Specifications, readable without the proofs and without the model's internals:
`Spec` (histories, `run`), `SpecC` (cross-fader calls), `SpecT` (tables), `SpecF` (binary32
conditions on libm, careful callers), `SpecO`, `SpecN` (NaN), `SpecE` (ideal oscillator:
interpolated waveform, filter integral, `plays`), `SpecX` (bounds, constant waveforms, stability,
DC gain), `SpecY` (linearity), `SpecU` (programs that differ slightly), `SpecZ`/`SpecZ32` (standing still), `SpecM` (mirror, rotation), `SpecL` (scripts that differ in selections), `SpecV` (impulse response,
convolution), `SpecW` (work), `SpecG` (transfer function, textbook responses), `SpecD` (repeated
sample-rate changes), `SpecH` (harmonics), `SpecR` (the ideal fed with binary32 samples, phases and
gains; the accuracy of the complex exponential), `SpecP` (phases outside [0,1)), `SpecA` (the
phase accumulators and the tone generator of tests/), `SpecJ` (evenly paced phases, calls that only
play), `SpecI` (windows of a memory), `SpecK` (misuse), `SpecB` (what the
filters keep out), `SpecS` (scripts over related samples, inverted and zero samples),
`SpecQ` (one program on two machines).

Property theorems: `Prop_*.v` (each followed by `Print Assumptions` and one or more `Example`s
that show concrete, non-trivial cases of the hypotheses; `Demo.v` holds the concrete tables and
runs used there). All other files are proofs.

## 3. Plan per property (what is modelled, how it is proved)

| id | number system | method |
| --- | --- | --- |
| C01-C03 | B32 | case analysis of `build` for every resampler; outcome for every power-of-two length up to 2^24; `_refuted` witnesses for the three faults |
| C04, C09 | B32 | exactness of powers of two in Flocq |
| C05-C07 | R | algebra; induction over every table one can obtain from `build` (`madeFrom`) |
| C08 | B32 | Flocq error analysis of one segment (binary64 differences exact or within half an ulp, one binary32 rounding each), witnesses for 32768 and 65536 samples |
| C10-C16 | B32 | cross-fader as a state machine, invariant over every history of calls; gains by rounding analysis |
| C17, C18 | B32 | Sterbenz, rounding of phase differences, any oscillator state |
| C19, C20 | any | fold laws |
| C21, C22 | B32 | invariant of the oscillator over every history of a careful caller; exact fault condition for the one remaining fault |
| C23-C25 | R | one sample of the model equals the filter integral (Coquelicot `RInt`) of the interpolated waveform; refinement over histories (`plays`) |
| C26, C27 | R | exact size of the error; concrete histories whose output misses the ideal |
| C28 | R | gain bound summed over the filter's memory, any length of history |
| C29 | R | induction; limit by stability. Turning back: the remembered index is the floor but is taken for the ceiling (same lemma as C26) |
| C30 | R | three-run simulation (superposition), faults included |
| C31 | R / any | any batch width: whole runs equal; every index inside the padded arrays |
| C32 | R | output = convolution integral of the whole past with the full filter's impulse response |
| C33 | R, B32 | exact rational computation |
| C34-C36 | any, B32 | bisimulation |
| C37, C38 | B32 | evaluation of the error path; rounding analysis; witnesses |
| C39, C40 | B32 | NaN propagation through every operation |
| C41 | B32 | counters; bounds on the index walk by rounding analysis |
| C42, C43 | R | the two ideals of C23-C25 are moved into each other |
| C44 | B32 | bit-for-bit, from the construction |
| C45, C46 | R | transfer function as a quotient of integer polynomials; inequality for all frequencies by a verified positivity checker (`PolyZ.nonneg`) evaluated by the kernel; steady-state limit for tones |
| C47 | B32 | the segment analysis of C08 at any amplitude, between the grid points, and for the stored differences |
| C48 | B32 | C08's step iterated |
| C49 | R | distance between the oscillator's memory and that of the pure harmonics contracts at every sample; superposition of C45's tones; Taylor bound for the lines between samples |
| C50, C51 | B32 against R | rounding error of one segment, of the boundary sum, of one pole's update and of the sum over poles, with every intermediate value bounded (no overflow); the error of each pole's memory contracts at every sample, so a bound independent of the number of samples is an invariant of histories; the README's forward histories and one-octave turning histories are shown to be covered |
| C52 | B32, R | `processOne` on a phase and on its reduced phase differ only in the recorded phase, so C21's invariant carries over; R: the step of two phases is the step of their fractional parts; B32: rounding of the steps to and from phase 1; witness for the tiny negative phases |
| C53 | B32 | one update of the accumulator at the level of reals (half-ulp bounds below 1 and below 2, Sterbenz, the grid of [1,2)), backward by symmetry; induction over the steps; C21 and C50 applied |
| C54 | B32 | invariant: the cross-fader fades to, or is on, the entry of the tone, and the lower entry never falls, so the fault of C22 (characterised exactly for wide phases in PWide) cannot occur; the fade is over when the tone ends; witness for the excluded case |
| C55 | B32, R | the block is cut out of C50's invariant (the ideal state after any covered history has bounded memory); the ideal fed with the binary32 phases differs from the harmonics' steady response by a contraction plus the pace error; the constant table by C29's law and C50 |
| C56 | R, B32 | the second history is replayed on the samples of the first (tables determine control flow, which does not depend on the selected waveform); the difference of two filter memories fed with the same signal is multiplied by exp z at every sample; binary32 by C50 |
| C57 | every `Num` | Mem.v: the sample loop on a memory with two windows; induction on the number of samples relates it to the loop of Osc.v on separate lists, for every overlap that does not overwrite an unread phase; for the others the loop is related to the memory it leaves behind |
| C58 | every `Num`, B32 | no table: induction over the calls; waveform: the indices of a sample do not depend on the selection, the first table access does; phases: a sample that succeeds has converted (reduced phase * length) to an int and reduced it into the entry, impossible for such phases, infinities and overflow included; debug: a step that passes the assertions reaches `reduce`, whose assertion fails outside [-1,2] |
| C59 | RNum, B32 | C49/C55 with the harmonics split at c; Butterworth gain decreasing in the frequency (C45), stop band of C46; tones k cycles per sample apart have the same samples |
| C60 | B32 | a logical relation over the whole model (`Rel.v`): any relation between samples that the arithmetic preserves is preserved by build and by every call; "negated up to the sign of a zero, or both NaN" is one, because rounding to nearest even is odd |
| C61 | B32 | the ideal of C50 (samples, phases, gains) is the same on both machines: the cross-fader computes the same entries and gains whatever the libm (log2 exact), contraction and build mode; then C50 on each side |
| C62 | B32, R | the re-sampled table is a freshly built one (C09), whose cross-fader rests on 0.1's entry: its state machine after k equal requests; exact: `plays` extended by the re-sampling and one sample with gains 0 and 1; the refutation integrates half a hat through the Butterworth-2 pole pair and bounds exp and cos |
| C63 | R, B32 | the two programs' states are kept in a relation: same table shape, same cross-fader, phases within eps on the circle, pole memories within (S eps + delta) times the poles' weights; a pole's new memory is rho*old + response of the segment, both waves differ by at most S eps + delta at every instant after re-timing the segment to [0,1]. Binary32: the second history is replayed on the first one's samples (same table, so same answers), compared with the first, and C50 bounds both roundings |
| C64 | R, B32 | SpecZ adds to the ideal of SpecE a sample of step 0 (filter fed with the held value). A zero step asks for entry 0, takes the forward code with the same segment at both ends, no slope term survives and the two boundary terms add up to wave(p)(1-e^z)-shaped; same invariant as C23. Held memory in closed form: e^{Nz} y + c stepResponse, limit by stability. Binary32 (SpecZ32): the sample lemma behind C50 holds for step 0 too (the only use of step <> 0 was the debug assertion), so the tracking invariant of C50 carries over |
| C65 | B32 | SpecRate: a step of a given octave, histories that stay in it, histories that differ in the rate given to updateSamplerate. The rounded step limits are the same dyadic numbers at every usable rate (C09), hence the same floats; with them the cross-fader. With fades of different length: two tables at rest on the same entry that differ in nothing else stay so while every request is for that entry (simulation); a fresh table whose requests are all for one entry is at rest on it after as many requests as its fade has, one more if the first request starts the fade |
| C66 | B32 | SpecEntry: two sets of samples and resamplers that give one entry the same samples (Spec.mipmap). Equal samples give equal slots and phases (C02); at rest the second entry has weight 0 and is not evaluated; two tables at rest on the same entry that agree on it then give the same samples (simulation); coming to rest as in C65 |
| C67 | generic in the arithmetic, stated for B32 | SpecBank: waveform i of one set has the samples of waveform j of the other; the same calls under other numbers. Equal samples give equal slots (C02, C44), and the two cross-faders are equal all along; simulation of two oscillators whose tables agree on the shared waveforms, re-sampling rebuilding equal waveforms from equal slots (C07) |
| C68 | generic in the arithmetic, stated for B32 | PUsed: a measure of the requests for one entry left before a cross-fader in any state is at rest on it (at most 2n+1), decreased by every request; two cross-fades at rest on the same entry are indistinguishable (C65's `calm`). The step limits depend only on the number of entries (C65), so two reachable tables agree on them |

Every property of the list is expressible in the model; none is `not_applicable`.

## 4. Trusted base

* Coq 8.16.1's kernel (including its VM, used by `vm_compute` and `vm_cast_no_check`) and
  `coqchk`, which re-checks every file without the VM.
* Axioms. `Print Assumptions` of C19_block_size, C20_one_per_phase, C34_null, C34_ownership,
  C35_reset_forgets, C35_load_forgets, C36_setWaveform, C38_reduce_int, C38_isOdd, C31_in_bounds
  and C41_same says "Closed under the global context". For every other theorem of MANIFEST.json
  it lists exactly these four axioms of the standard library (they come with the real numbers):
  - `ClassicalDedekindReals.sig_not_dec`
  - `ClassicalDedekindReals.sig_forall_dec`
  - `FunctionalExtensionality.functional_extensionality_dep`
  - `Classical_Prop.classic`
  `coqchk` reports more library axioms because it lists those of every library file loaded
  (primitive integers and floats, etc.), whether used or not. No axiom is added here.
* The transcription of the C++ into the model, function by function, with the simplifications
  below.

### Hypotheses about libm and the resampler

* `log2_exact`: `log2f` is exact on powers of two. `log2_close`: its error elsewhere is below
  2^-19 (C01, C38 only). Stated in `B32Laws.v` and `B32Pow.v`; any `log2f` within a few ulps has both.
* `accurateExp` (SpecR.v, C50 and C51): the two complex exponentials err by at most 8/2^24 of the
  modulus, for real parts in [-16, 0] and imaginary parts in [-16, 16].
* C39 assumes that the complex exponential of a NaN is NaN.
* The resampler (`src_simple`) is an arbitrary function; `resamplerOk` (it succeeds and
  generates the requested number of frames) is assumed where a theorem says so. C30 assumes it
  linear, C42/C43 assume what it makes of moved waveforms.

### What is modelled

All of `adwt/*.hpp` and `adwt/*.cpp` that computes: maths.hpp, crossfading.hpp,
wavetable_data.hpp/.cpp, filter_type.hpp (all five coefficient sets, as exact decimals, and the
derived tables), adwt.hpp/.cpp (template over the filter, both directions, loading and swapping
of tables, resets, sample-rate change, the scalar and the batched (xsimd) loops with padding).
`assert` is modelled (debug builds: a failed assertion is an outcome; release builds: skipped).
Signed overflow, shifts, out-of-range float-to-int conversions, out-of-bounds indices and null
dereferences are outcomes, not assumptions.

### What is not modelled

* `-ffast-math` (adwt/CMakeLists.txt:33) lets the compiler reassociate, contract scalar code (FMA), flush
  subnormals and assume no NaN. Contraction of the scalar code, division by way of the reciprocal and
  the order of the sum over the filter's poles are modelled and arbitrary (below; the sum over segments is in the source's order); for
  the rest the binary32 theorems are about the source as IEEE-754 reads it. (Subnormals: the
  option is given to the compiler only, not to the linker, so the start-up code that switches
  flush-to-zero on is not linked in by this library.) The exact-arithmetic theorems do not depend
  on the order.
* Properties marked R in the table are about the algorithm in real arithmetic. C50 bounds the
  distance of the binary32 output from the ideal one fed with the same samples, phases and gains
  (worst case, proportional to the steepest slope of the table); C08, C47 and C48 do so for the tables.
* xsimd's complex `fma`, `fms`, `fnma` and product are modelled with the formulas of xsimd 13.0.0
  over its real `fma`/`fms`, which are fused or not (`lm_fused`, arbitrary in every binary32
  theorem).
* Contraction of scalar code. Each sum with products of the scalar code (complex products and
  quotients, `part_b`, `part_d`, the scalar loops of computeI0 and computeISum, the mix of a
  cross-fade, the one-pole update, the squared poles, computeQ in double, rebuildWaveforms) has a
  number, and `Num.tfuse`/`lm_contract` says which of its products is fused with the sum (none,
  the first, the second). Every binary32 theorem holds for an arbitrary choice, except the
  counterexample C08_larger_tables_refuted for 32768-sample tables, which is about code that
  rounds `m * x` (with a fused `m * x + q` the error stays under the stated bound). One choice is
  made per expression of the source: different inlined copies of the same expression contracting
  differently is not modelled.
* Division by way of the reciprocal (`-freciprocal-math`). The quotient by the phase step in the two
  boundary loops (adwt.cpp:188, 277; loop-invariant, so the compiler may divide once) and the
  two quotients of a complex division, and the quotients by the sample rate that set the step limits of the
  mipmap entries (crossfading.hpp:116) are `Num.tquo`: x / y, or x * (1 / y) with both operations rounded, as
  `lm_recip` says for each of the four places, arbitrary in every binary32 theorem. This is why the theorems
  on accuracy ask for phases that are 0 or at least 2^-100 (`plainPhase`): a step below 2^-128 has an
  infinite reciprocal; and why `rate32` and `okRate` ask, of a machine that multiplies by the reciprocal of the
  rate, that the rate times its rounded reciprocal round to 1 (`quotientOk`: so for every usual rate,
  C09_usual_rates; otherwise a limit is one unit below the power of two, C09_unusual_rate_refuted).
  Not modelled so: the gain `samples_left / num_samples` (one division per sample, with no other by the same
  divisor: compilers keep it), the double division of computeQ, and the quotients by a table length (a
  power of two: the same either way). Reciprocal estimates (`rcpps` with a Newton step) are not modelled.
* Complex multiplication is the textbook one; C99 Annex G's recovery of infinities from NaN
  results is not modelled. (xsimd and -ffast-math do not do it either.)
* Allocation failure, exceptions of `std::vector` other than `length_error`, object lifetimes
  beyond ownership of the tables (C34), threads (the library has none), `std::cerr` output.
* libsamplerate's internals. `Span` and `Direction` are a list and a boolean.
* The lanes of a batch are computed one by one, independently.
* The sum over the filter's coefficients may be taken in any order: `Num.torder`/`lm_order` is an
  arbitrary binary tree per number of poles, used if its leaves are each pole exactly once
  (`addsUp`), else the source's loop. Every binary32 theorem holds for every such tree (so for any
  vectorisation or unrolling of that loop). Sums that start from the accumulator's initial zero
  differ by an addition of 0, which is exact.
* The sample rate is at least 2^-100 in C09 and the theorems that rest on it (below, the
  stored step limits are subnormal).
* extras/, cmake/ and tests/ are not part of the library; of tests/ only the phase accumulators and the
  sequence of calls of the tone generator are modelled (SpecA.v), with the steps taken as given
  (their computation from frequencies, the command line and the files are not modelled).

### Mutation tests

`seeded/LOG.jsonl` lists the wrong programs tried against the theorems: the edited definition,
the edit, the claim it breaks and the theorems whose proofs (statement or a lemma they use) then
fail.
