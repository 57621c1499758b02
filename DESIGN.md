# Formal model of ViSQOL in Rocq (Coq 8.16.1): design

The pinned source is `/repo` (google/visqol, C++17).  It is read as text; nothing in it is built or run.  This file says
what is modelled, how each property of `properties.jsonl` is stated and proved, and what has to be trusted.  Current
state: 70 proved, 49 partial (a property that is false of the code counts as partial); 332 theorems in `Props/`.

## 1. Layout

| directory | contents |
|---|---|
| `rocq/theories/Base` | outcome type (`Res.v`), numeric interface (`Num.v`) and its instances (`NumR.v`, `NumF.v`), lists, matrices, complex numbers |
| `rocq/theories/Model` | the model: definitions only, every definition cites file and lines of `/repo` |
| `rocq/theories/Spec` | small independent specifications used in property statements |
| `rocq/theories/Proofs` | lemmas, and the concrete objects used by examples and refutations (`*CasesP.v`, `ToyRunP.v`) |
| `rocq/theories/Props` | property theorems only, each closed by `exact lemma`, with examples and `Print Assumptions` |
| `seeded/LOG.jsonl` | wrong programs tried against the theorems (section 6) |

Theorem names start with the id of the property.  The suffix `_partial` marks a theorem that proves less than the English
statement, `_refuted` one that proves the statement false of the model by a witness.

## 2. Modelling conventions

* **Outcomes.**  A C++ call is modelled by `res A` = `Ret a` | `Err code` (an `absl::Status`) | `Throw` (an exception
  escapes: Armadillo's bounds checks, `std::length_error`, `std::filesystem_error`) | `Ub` (undefined behaviour:
  out-of-range `operator[]`, uninitialised read, integer division by zero, double-to-int conversion out of range, signed
  overflow, null dereference).  Nothing is totalised silently: an out-of-range access is `Ub` or `Throw`, never a default
  value.  Armadillo 14.2.3 is compiled with its checks on (`()` and submatrix views throw, `.at` is unchecked); `assert`
  is compiled out.
* **Numbers.**  The model is generic over a record of operations `Num T`.  Two instances exist: exact reals `R` (algebraic
  and analytic statements) and IEEE binary64 `PrimFloat.float` (statements about NaN, infinities, rounding, and executable
  witnesses).  For binary64 the libm functions are an arbitrary argument (`Libm`), so no theorem depends on their
  accuracy.  A theorem stated for every `Num` holds for both.  A theorem over `R` says nothing about rounding; where the
  rounded statement is false that is recorded (C67, C73).
* **Integers.**  Lengths and indices are `nat` or `Z`; wherever the code depends on `size_t`/`int` wrap-around, the wrap or
  the overflow (`Ub`) is explicit.
* **Loops** whose termination is not structural run on fuel; running out of fuel is an error value, and the theorems show
  that it does not happen.
* **Matrices.**  `AMatrix<T>` is a record rows/columns/column-major list; `AudioSignal` is restricted to one column, which
  is what `LoadAsMono` and the Python and C++ entry points produce.
* **External code** is a function argument of the model (an oracle), quantified in every theorem:
  PFFFT (`pffft`: forward, backward, rounding to 32 bits; some theorems assume only that it keeps the buffer length,
  `keeps_length`; those about the values of transforms assume `ideal_fft` of `Spec/FftSpec.v`), loading a libsvm or TFLite
  model and the loaded model's function (`world`, `svr_model`, `lattice`), file contents (`w_file`), existence checks
  and opening for append (`Cli.v`), formatting of numbers (`formats`), `absl::SimpleAtod`.
* **Simplifications**, each repeated at the definition: reduction order inside Armadillo's `mean`/`stddev` is first to
  last; `vector::reserve` succeeds below 2^57 elements and throws above; `pow(x, 2)` is a product; results files are
  different from the files that are read; a stream appends characters in order.

## 3. What is modelled

| source (under `/repo/src`) | model | not modelled |
|---|---|---|
| `alignment.cc` | `Alignment.v`: all | |
| `amatrix.cc`, `amatrix.h` | `Amatrix.v`: every member for real elements | `Print`, iterators, aliasing through `MemPtr` |
| `analysis_window.cc` | `Window.v`: all | |
| `commandline_parser.cc` | `Cli.v`: `Parse` after absl has filled the flags, `BuildFilePairPaths`, batch CSV reader | absl's flag syntax, help text |
| `comparison_patches_selector.cc` | `Selector.v`: all; `LoadLog.v`: the warning about dropped patches | the text of that warning |
| `complex_valarray.cc/.h` | `BankArrays.v` (every operation used by MakeFilters, as loops over arrays), inside `Erb.v` (per channel) | PrintSummary |
| `convolution_2d.cc`, `neurogram_similiarity_index_measure.cc` | `Nsim.v`: all | |
| `envelope.cc`, `xcorr.cc`, `fft_manager.cc`, `fast_fourier_transform.cc` | `Fft.v`: all, buffers as lists; `FftHeap.v`: the same on a heap of buffers, with `audio_channel.h` | PFFFT itself |
| `equivalent_rectangular_bandwidth.cc` | `Erb.v`: all, per channel; `BankArrays.v`: all, array by array | |
| `gammatone_filterbank.cc`, `gammatone_spectrogram_builder.cc` | `FilterBank.v`: all, per band; `BankArrays.v`: all, array by array with indices (proved to agree, C89) | |
| `image_patch_creator.cc`, `vad_patch_creator.cc` | `PatchCreator.v`: all | |
| `include/sim_results_writer.h` | `Cli.v`: console, CSV and debug JSON writing as appended text | number formatting, protobuf's JSON printer |
| `libsvm_target_observation_convertor.cc`, `support_vector_regression_model.cc` | `Mappers.v` (prediction), `SvrModel.v` (training data, lifetime), `LoadLock.v` (loading from several threads) | libsvm |
| `main.cc` | `Cli.v`: the batch loop and exit status | logging |
| `misc_audio.cc` | `MiscAudio.v`, `Wav.v` (`LoadAsMono`), `Spectrogram.v` (`PrepareSpectrogramsForComparison`), `LoadLog.v`: the messages of `LoadAsMono` | the texts of the messages |
| `misc_math.cc`, `misc_vector.cc` | `MiscMath.v` | |
| `rms_vad.cc` | `RmsVad.v`: all | |
| `signal_filter.cc` | `SignalFilter.v`: all | |
| `spectrogram.cc` | `Spectrogram.v`: all | |
| `speech_similarity_to_quality_mapper.cc`, `svr_similarity_to_quality_mapper.cc`, `tflite_quality_mapper.cc` | `Mappers.v` (prediction), `Tflite.v` (initialisation, destruction) | TFLite |
| `svr_training/training_data_file_reader.cc` | `Training.v`: all | `absl::SimpleAtod` |
| `visqol.cc` | `Visqol.v`: all | |
| `visqol_api.cc`, `visqol_manager.cc` | `Manager.v`: all; `Warnings.v`: the warnings of ValidateInputAudio and when they are given | the texts of the log messages, the thread-safety annotations |
| `wav_reader.cc` | `Wav.v`, `Duration.v`: all | |

### 3.1 Not modelled

Log output other than the warnings of `ValidateInputAudio` and what loading a file and matching patches announce; memory exhaustion; timing; the Python bindings; the contents of the trained models; Bazel files; tests;
protobuf serialisation.  Of `amatrix.cc`: `Print`, iterators,
`MemPtr`, the float and complex instantiations.  The compiler, the C++ standard library, Armadillo, absl, libsvm, TFLite, PFFFT and protobuf are
taken at their documented behaviour or are oracles, as section 2 says.

## 4. Properties

"generic" = for every `Num`; "R" = exact reals; "F" = binary64.

| id | title | status | how it is stated and proved |
|---|---|---|---|
| C01 | Create accepts exactly the documented configurations | proved | generic; decision table over configurations and loader outcomes; case analysis |
| C02 | Measuring before any successful initialisation is always Aborted | partial | generic; induction over call histories of the manager and the API object; witness for the uninitialised rate |
| C03 | A failed re-initialisation does not leave a half-changed object in use | partial | generic; same machine; witness histories |
| C04 | Differing sample rates are always rejected, equal ones never are | proved | generic for different rates; for equal rates, every later stage is shown not to report InvalidArgument unless a signal is too short (R and F for the second alignment) |
| C05 | A measurement does not depend on earlier measurements | proved | generic; the filter bank's state is threaded through every call; simulation between histories |
| C06 | Measure leaves the caller's audio buffers unchanged; Run rewrites its degraded argument in a fixed way | proved | generic; what `run` does to its in/out argument |
| C07 | Audio that is too short is rejected with InvalidArgument in audio mode | partial | generic; composed pipeline; witnesses |
| C08 | Speech mode rejects too-short references as audio mode does | partial | generic/F; composed pipeline; witness lengths |
| C09 | Audio-mode MOS is always within [1,5] | proved | F; comparison semantics of `std::min`/`std::max` |
| C10 | An undefined similarity is never reported as a perfect score | partial | F; NaN witness for every run; positive part for the fit |
| C11 | Speech (non-lattice) mapping is monotone, within [1,5], and perfect similarity scores 5 when scaled and 4.x when unscaled | proved | R; monotone exponential, numeric bounds by Interval |
| C12 | Totally dissimilar signals score exactly 1, all others get the mapper's score | proved | generic; case analysis at the level of a run |
| C13 | Reported aggregates are the stated means and have one entry per band | proved | generic; the message against sums of its patches |
| C14 | fvnsim10 is the mean of the lowest decile and never exceeds fvnsim | proved | R and F; sorted smallest tenth, permutation invariance, mean of the k smallest |
| C15 | fstdnsim is the standard deviation of the frames of all patches | proved | R; algebra of pooled variance |
| C16 | fstdnsim stays correct when patches have different lengths | partial | R; witness |
| C17 | Audio reference patches tile the spectrogram without overlap and inside it | proved | integers; closed form of the index loop |
| C18 | No complete trailing reference patch is left unscored in audio mode | partial | integers; witness length 75 |
| C19 | Speech reference patches are exactly the grid patches with voice activity | proved | R; selection as a filter over the grid |
| C20 | Voice activity is declared absent exactly after three consecutive quiet chunks | proved | generic; the chunk automaton against a window of three |
| C21 | Voice activity analysis stays inside the reference signal | partial | R; proved when the hop is integral; witness at 11025 Hz |
| C22 | Reference patches are the exact spectrogram columns | proved | generic; extensional equality with an index specification |
| C23 | Degraded patches have the reference patch's shape and are zero outside the degraded audio | proved | generic; extensional equality with an index specification |
| C24 | Matched degraded patches keep time order | proved | generic; invariant of the backtrace |
| C25 | Patch matching maximises the cumulative similarity | proved | R and F; optimality of the dynamic programme by induction over patches, over an ordered structure with monotone addition |
| C26 | Matches stay inside the search window | partial | F; proved for positive similarities; witness |
| C27 | Every search radius the configuration accepts is safe | partial | generic; proved for 1 <= radius within int range; witnesses |
| C28 | Only trailing reference patches are dropped and at least one is always scored | proved | F and R; unsigned wrap explicit |
| C29 | Lost patches are reported as zero | proved | generic; every field of every returned record |
| C30 | Realignment never lowers a patch's similarity, never drops or reorders patches | proved | generic; relation between the lists before and after |
| C31 | Global alignment shifts by at most half the reference and does nothing else | proved | R and F; shift relation of `Spec/AlignSpec.v` |
| C32 | The lag is the first maximiser of the cross-correlation | partial | R; DFT over complex numbers, cross-correlation theorem, no wrap-around; witness for short signals |
| C33 | AlignAndTruncate returns two signals of equal length | proved | generic |
| C34 | AlignAndTruncate never fails on valid signals | partial | R with the ideal FFT, F with any FFT; witness |
| C35 | Slicing returns the samples of the interval, in place | partial | R; witness past the end |
| C36 | The analysis window is a Hann window | proved | R; trigonometry |
| C37 | The IIR filter satisfies its difference equation and can be run in pieces | proved | R for the recurrence and linearity, generic for pieces |
| C38 | Spectrogram geometry | proved | generic geometry; R for the root mean square |
| C39 | A positive sample rate always gives a usable analysis hop | partial | R; witness 43 Hz |
| C40 | Centre frequencies are strictly ascending and inside the band | proved | R; monotone exp/ln |
| C41 | Compared spectrograms are normalised to a common non-negative floor | proved | R; closed form |
| C42 | NSIM of a patch with itself is 1, it is symmetric and at most 1 | proved | R; F for symmetry; Cauchy-Schwarz for the bound |
| C43 | Smoothing is the 3x3 weighted average with replicated borders | proved | R; weighted sum over clamped indices |
| C44 | Down-mixing is the channel mean and mono audio is passed through | proved | generic, R, F (16-bit codes exhaustively) |
| C45 | Level matching equalises sound pressure level | proved | R; logarithms |
| C46 | A silent degraded signal is handled | partial | F; witness |
| C47 | WAV decoding round-trips and rejects everything malformed without overrunning | partial | bytes; parser with an explicit stream position; round trip; witness width |
| C48 | WAV files with an odd-length chunk before the data are decoded | partial | bytes; witness |
| C49 | Sequential reads never deliver samples beyond the data chunk | partial | bytes; induction over request sequences; witness |
| C50 | Forward and inverse transform wrappers are inverse to each other | proved | R complex DFT; generic layout |
| C51 | FFT sizes are the next power of two | proved | integers |
| C52 | Batch files are read back as written | proved | strings; round trip of the reader with a writer specification |
| C53 | Any batch file is handled without undefined behaviour | partial | strings; exact characterisation of definedness; witnesses |
| C54 | Batch comparisons are isolated and ordered | partial | state machine over files; induction over the list of pairs; witnesses |
| C55 | The results CSV has exactly one header and one row per result across any number of runs | proved | induction over sessions |
| C56 | A crash while writing results never damages earlier rows | proved | crash = any prefix of the appended characters |
| C57 | CSV rows can be read back | partial | strings; splitting specification; witnesses |
| C58 | The command line is validated before any work | proved | case analysis over flags and oracle answers |
| C59 | Features reach the quality models in the right slots | proved | strings; injectivity of decimal names |
| C60 | Matrix helpers obey the algebra the pipeline relies on | proved | generic; R for statistics |
| C61 | Matrix equality implies equal contents | partial | generic; witness |
| C62 | The filter honours any coefficients it is given | partial | R; witness |
| C63 | Patch similarity is the published formula | proved | R; published formula as a specification |
| C64 | Loading any file content is safe | proved | bytes; safety over all contents |
| C65 | An unusable input file is reported as an error | partial | bytes; witness |
| C66 | Lost patches enter the summary as silence | partial | R; witness |
| C67 | Each patch is weighted by the frames it has | partial | F; witness and error bound |
| C68 | The analysis window is 80 ms and the hop a quarter of it | proved | R and F; all rates |
| C69 | The structure term never divides by zero | proved | F; sign of rounded products |
| C70 | A recording that ends early is completed with silence | proved | bytes; prefix relation |
| C71 | Concurrent runs can share a results file | partial | interleavings of steps; witness |
| C72 | Printing a result never reads past its fields | proved | generic; bounds of every repeated field |
| C73 | The second alignment never makes a comparison fail | partial | R and F; bounds on rounded frame times; witness |
| C74 | Signals that are long enough are always compared | proved | R; composition of every stage's totality |
| C75 | A regression model's memory is freed exactly once | partial | heap of live blocks; life of an object as a list of uses |
| C76 | Training data of any shape is handled | partial | exact characterisation of the defined inputs |
| C77 | Training files are read back as written | proved | generic in the printing and parsing of values |
| C78 | Malformed training files are noticed | partial | counterexamples for all parsers; text_lines characterisation |
| C79 | The lattice mapper is initialised and destroyed in a safe order | partial | case analysis over the library's answers |
| C80 | The header's duration is the signal's duration | partial | any number type; the row count of the loaded signal |
| C81 | The loudness of the degraded signal has no influence | proved | scaling commutes with envelope and correlation, the maximising lag is unchanged, level matching divides the factor out |
| C82 | A recording compared with itself is perfect | proved | the autocorrelation peaks at lag 0; identical patches have index 1, no other choice can be better, and the path found through them has the maximal total |
| C83 | Models can be loaded from several threads | proved | invariant over all interleavings: the lock's owner is the only call inside, its buffer is the one it would have alone; a decreasing count of steps |
| C84 | Polarity has no influence | partial | the filters are linear and the frame energies even; a constant witness for the alignment |
| C85 | Every number in a result is in its range | proved | the bounds of one comparison (C41-C43) carried through matching, lost patches, realignment and the summary; the number of patches is bounded by the number of frames |
| C86 | The FFT buffers are used safely and carry nothing over | proved | generic; single-block programs compose as functions on block contents; an invariant over the blocks of a manager for the rest |
| C87 | The upper envelope is the magnitude of the analytic signal | partial | R; refuted by two witnesses; closed form of what is computed for every signal, from the inversion of the DFT |
| C88 | The gammatone filters are stable and pass a tone at their centre frequency unchanged in level | proved | The state of the difference equation of a section is followed as a vector that the poles rotate and shrink (modulus r < 1), which bounds the response and makes it forget its start; the deviation from the steady state obeys the same equation with vanishing input; the four steady-state gains multiply to 1 because the code's gain is the modulus of exactly that product, and neither numerators nor denominators vanish on the unit circle |
| C89 | The arrays of the filter bank stay in step | proved | The array code of MakeFilters, SetFilterCoefficients, ApplyFilter and Build is modelled statement by statement with checked indices; every array operation is shown to act channel by channel, complex arithmetic on real values is reduced to real arithmetic (std::pow by its polar form, with the fourth power independent of the choice of angle), and the loops are shown to fill the matrices row by row and column by column |
| C90 | The level at which both recordings were made has no influence | partial | Refuted by a silent signal with one impulse against a constant one, at two levels; a bound on the output of the filter bank in terms of the largest sample gives the level below which every cell is at the floor; above the floor a factor adds the same number of dB to every cell, which the normalisation and the thresholds of silence remove |
| C91 | A patch scores 1 only if it is identical to what it was matched with | proved | A map entry is 1 only where the blurred patches agree and their difference has no blurred square; the positive 3x3 weights make every cell of the difference zero; carried to a run through the matching of C25 |
| C92 | A wider search never lowers the score | partial | Refuted by a pair of one-band spectrograms computed in binary64; with positive similarities the best total of C25 is taken over a larger set of matchings, and vnsim is the mean of the patch similarities (sums over patches and bands swapped); with a reaching radius every window is the whole spectrogram, so the two computations coincide |
| C93 | Rounding does not noticeably change the similarity of two patches | partial | Error bounds are carried through every operation of the similarity (weights, nine-term sums, variances, quotients, square root, means) with Flocq's rounding lemmas; the square root is harmless where the variances are not tiny, and for identical patches numerator and denominator have the same error; refuted by a constant patch, whose exact similarity is rational and whose computed one is evaluated |
| C94 | The computed similarity of two patches is at most 1 | partial | Refuted by evaluating a nearly constant patch; the rest follows from C93 and the exact bound of C43 |
| C95 | A delayed copy of a recording is aligned exactly | partial | For a balanced sound the upper envelope is twice the absolute value (C87), and the correlation with a shifted copy is largest at the true shift only: strict Cauchy-Schwarz, with the first or last sounding sample as the place where the two differ; refuted by twelve equal samples, whose envelope rises where the silence was added |
| C96 | The audio taken for the second alignment is the audio of the matched frames | partial | Error bounds for the quotient, the products and the sum give both sample positions within a thousandth of an integer, so truncation hits that integer or the one before; in exact arithmetic they are integers; the 48 kHz witness is evaluated |
| C97 | The times reported after the second alignment are the times of the audio compared | partial | The slices are intervals of the recordings, moving puts zeros in front or drops samples, and the cut removes exactly what the lag says; so both pieces are intervals again, whose ends are the reported times; refuted at the end of the degraded signal, where the slice itself starts with zeros |
| C98 | Only finite levels are compared, and what is undefined counts as silence | partial | Every comparison with NaN is false, so each entry goes through max(x, eps) to a value in range whatever it was; bounds on log10 bound the levels; an infinite entry is followed through to the minimum |
| C99 | Finite samples give a defined comparison in binary64 | partial | A bound on exponents (\|x\| at most 2^k, finite) is carried through means, convolutions, variances and the similarity quotient, whose denominators stay positive; so no similarity is NaN and every scan finds an offset; the overflow witness is run by computation |
| C100 | The gammatone filters do not overflow | proved | The denominator is split into two complex factors of modulus at most 1; in the coordinates of one factor the state grows by at most the disturbance per sample, so linearly, and the state itself quadratically; rounding errors are part of the disturbance and stay below the input because 2^40 rounding units are small |
| C101 | Integer recordings are compared without undefined behaviour in binary64, silence included | proved | Each coefficient is followed with its relative error (2^-40 units) from the exact pole and zero positions: the pole radius is exp(-2 pi b/fs) < 1 with room to spare, the gain is bounded below through complex moduli; levels are bounded by the smallest nonzero sum of squares; an undefined sample is related to a silent one through the whole filter bank |
| C102 | Every member of the matrix class does what it says and touches nothing else | proved | Each operation is a tabulation over rows and columns; its elements are read back through the index formula c*rows+r, and the guards are compared with the ranges case by case |
| C103 | The summary of a column shows its beginning, middle and end | partial | The bounds of the three loops are computed in 64-bit unsigned arithmetic; the cases of a negative start wrap around and end the loop or throw |
| C104 | The tables printed on the console are aligned and show the numbers of the result | partial | The text is written as a list of lines, each ended by a line feed, and cut back into these lines; widths and bar positions add up over the concatenated cells; a decimal numeral of a number below 10^9 has at most nine digits |
| C105 | Wav files are mixed down without accumulated error and their comparison is defined in binary64 | proved | Sums of at most 65535 16-bit samples over 32768 are exact in binary64, including the sign of zero, so the only rounding is that of the division; the quotient is bounded below by 2^-31; C101 then applies to the loaded samples |
| C106 | In binary64 a recording compared with itself gets a similarity close to one | proved | Error bounds for the convolutions, products and quotients with values up to 4100; the chosen path scores at least as much as the diagonal one, and summing n similarities changes the score by at most n^2 roundings; the second alignment never lowers a similarity; vnsim is the mean of the patch similarities up to rounding |
| C107 | In binary64 the degraded recording is brought to the level of the reference | proved | Relative error of the running sum of squares by induction; logarithms turn the relative errors of the quotient and root into absolute ones; the power of ten turns them back |
| C108 | With single precision transforms the lag found is the best one | proved | Parseval and Cauchy-Schwarz carry the mean square errors of the forward transforms through the product of the spectra to the sum of the absolute errors, which bounds the backward transform; the maximum of values known to d is at most 2d below the true one |
| C109 | With single precision transforms the first alignment shifts the degraded recording by the exact best lag | proved | errors in the mean square are carried through the subtraction of the mean, the forward transform, the weights and the backward transform (the inverse of a packed spectrum has at most 2 sqrt M times its size) to the envelope, and by Cauchy-Schwarz to the exact correlations of the computed envelopes, to which C108 applies |
| C110 | Ratings of speech follow the published formula in binary64, and a speech file compared with itself is rated at least 4.99 | proved | the reported similarity is the mean handed to the mapper; rounding errors of constants, exponent, exponential and scale are added up; rounding is monotone, so similarities above 0.999 are rated no lower than 0.999, whose rating interval arithmetic bounds |
| C111 | A recording that starts late is aligned and then compared exactly as the recording itself | proved | C109 gives the shift by exactly -k, dropping k samples of the degraded recording leaves the reference; the rest of the run depends on nothing else, and C106 and C110 bound its scores |
| C112 | Warnings about the input are given exactly when they apply | partial | both quotients are within 1/4096 of a sample of the durations, rounding is monotone, and a difference of at least one sample from a second is preserved; the witness differs by exactly one second |
| C113 | Incomplete input is announced | partial | case analysis of the loader; the number of dropped patches is the difference of the lengths by the definition of the matched prefix |
| C114 | The gammatone filters are accurate in binary64 | proved | F; the state seen from the complex pole contracts by its modulus in every step, so errors add up to a geometric series; four stages; Cauchy-Schwarz for the root mean square |
| C115 | The filter banks of the program are accurate in binary64 | proved | F; relative error bounds of the coefficients from C101, the poles and residues against their exact values, the gain from the norms of its complex factors, sin against its angle |
| C116 | The decibels that are compared are accurate in binary64 | proved | F; the preparation in binary64 simulated step by step by the one over the reals, the raised level is Lipschitz above -45 dB, C115 for the entries |
| C117 | The similarities and energies of a result are finite numbers in binary64 | proved | F; powers of two bounding every number from the prepared decibels (C99) through the similarity map, the second alignment, the means and the deciles |
| C118 | A sample variance is never negative in binary64 | proved | F; Cauchy-Schwarz when some number is far from the mean, exactness on the grid of the numbers when all are near it |
| C119 | A mean similarity lies between the similarities it summarises | partial | F for the witness and the distance, R for the range; rounding error of a running sum |

### 4.1 Properties that are false of the code, or false in part

* **C02** (Measuring before any successful initialisation is always Aborted): Refuted as stated: Measure on an object on which no Create ever saw an audio section reads the uninitialised sample_rate_ (C02_uninitialised_rate_refuted). Proved for the manager over all call histories, and for the API once some Create has an audio section.
* **C03** (A failed re-initialisation does not leave a half-changed object in use): Refuted as stated: an Init that fails leaves is_initialized_ true with the new (unusable) settings, and a Create with rate 0 overwrites sample_rate_ (C03_failed_load_refuted, C03_reinit_case_refuted, C03_rate_kept_refuted). Proved: a never initialised object stays unusable, and after a failed Init no comparison returns a result.
* **C07** (Audio that is too short is rejected with InvalidArgument in audio mode): Refuted as stated: two empty signals are undefined behaviour, and global alignment pads a short degraded signal so that it is accepted. C07_short_audio_partial is about the signal after alignment.
* **C08** (Speech mode rejects too-short references as audio mode does): Refuted as stated: in speech mode a reference of more than a window but fewer than 29 frames makes the VAD patch creator throw. C08_window_partial is the remaining case.
* **C10** (An undefined similarity is never reported as a perfect score): Refuted as stated: std::min(5.0, NaN) is 5.0, so a NaN prediction of the regression model is reported as the perfect score (C10_undefined_is_not_perfect_refuted, C10_every_run_refuted). What holds: the speech mapping keeps NaN (C10_speech_partial), given exp(NaN) = NaN.
* **C16** (fstdnsim stays correct when patches have different lengths): Refuted as stated (C16_other_lengths_refuted); C16_equal_means_partial covers the lists of patches whose plain average of means is the overall mean.
* **C18** (No complete trailing reference patch is left unscored in audio mode): Refuted as stated (L=75, p=30 leaves 31 frames); what holds is that at most p+1 frames remain.
* **C21** (Voice activity analysis stays inside the reference signal): Proved when window size is a multiple of 4; refuted in general (11025 Hz, 124 s reference throws).
* **C26** (Matches stay inside the search window): Refuted as stated: with negative similarities a patch is reported outside its window. Proved for positive similarities, in binary64.
* **C27** (Every search radius the configuration accepts is safe): Refuted as stated: radius -1, radius 0 with a patch past the end, and radii near 2^31/p are undefined behaviour. Proved safe for every radius >= 1 whose window fits an int.
* **C32** (The lag is the first maximiser of the cross-correlation): Refuted as stated: up to eight samples the FFT is larger than the number of samples read back, so every negative lag counts as 0 (C32_short_signals_refuted). Proved for a longer signal of nine samples or more, in exact arithmetic with an ideal FFT.
* **C34** (AlignAndTruncate never fails on valid signals): Refuted as stated: a degraded signal longer than the reference with a negative lag makes the start row a negative int converted to size_t, and the row check throws (C34_longer_degraded_refuted). Proved for degraded signals no longer than the reference (exact arithmetic, ideal FFT), and in binary64 for any FFT when they are also more than half as long.
* **C35** (Slicing returns the samples of the interval, in place): Refuted as stated: past the end the silence goes in front and the last sample is dropped (C35_past_end_refuted). Proved for intervals ending before the last sample, exact arithmetic.
* **C39** (A positive sample rate always gives a usable analysis hop): Refuted as stated: 43 Hz is accepted by Create and gives hop 0, hence a division by zero when a spectrogram is built. Proved: the hop is positive from 44 Hz on.
* **C46** (A silent degraded signal is handled): Refuted as stated: in binary64 the scaled silent signal is NaN. C45 is the positive part.
* **C47** (WAV decoding round-trips and rejects everything malformed without overrunning): Refuted as stated in one point: 17 to 23 bits per sample are accepted as well. Proved: round trip, everything else about accepted files, termination.
* **C48** (WAV files with an odd-length chunk before the data are decoded): Refuted: the pad byte of an odd chunk is not skipped and the file is rejected.
* **C49** (Sequential reads never deliver samples beyond the data chunk): Refuted as stated: a request larger than the remaining count is served from behind the data chunk. Proved for request sequences that stay within the declared count.
* **C53** (Any batch file is handled without undefined behaviour): Refuted as stated: a blank line (back() of an empty string) or a line with one column (index past the end of a vector) is undefined behaviour. Proved: reading is defined exactly when each line after the first names two files, and undefined otherwise.
* **C54** (Batch comparisons are isolated and ordered): Refuted as stated: a comparison that throws (for example speech files of 31 samples at 50 Hz) or a malformed wav file ends the whole batch. Proved for batches in which every comparison returns a result or an error status, and for failed starts.
* **C57** (CSV rows can be read back): Refuted as stated: paths are not quoted, so a comma in a path adds columns; results of speech (21 bands) and audio mode (32) in one file have different columns. Proved when no field holds a comma or a line feed.
* **C61** (Matrix equality implies equal contents): Refuted: the column counts are not compared. Proved when they agree.
* **C62** (The filter honours any coefficients it is given): Refuted: the leading denominator coefficient and numerator coefficients beyond the denominator's length are ignored. C37 states what holds for the coefficients actually used.
* **C65** (An unusable input file is reported as an error): Refuted as stated: a rejected header leaves the sample rate unset and Run reads it. Proved: one missing file next to a readable one gives InvalidArgument.
* **C66** (Lost patches enter the summary as silence): Refuted as stated: only the means of a lost patch are cleared.
* **C67** (Each patch is weighted by the frames it has): Refuted as stated: 31 instead of 30 frames for the third patch at 48 kHz; C67_patch_frames_partial bounds the error by one frame.
* **C71** (Concurrent runs can share a results file): Refuted as stated: two runs that both find no file both write a header. Proved: nothing is lost, earlier content and other files stay, each text arrives as a subsequence.
* **C73** (The second alignment never makes a comparison fail): Refuted as stated: in binary64 the start and end times of a patch can round so that the two slices have one sample too few and one too many; a one-sample lag then makes the degraded slice longer than the reference and the truncation throws (C73_rounding_refuted). Proved: exact arithmetic always returns; binary64 returns or throws, never an error status or undefined behaviour.
* **C75** (A regression model's memory is freed exactly once): Refuted as stated: the destructor of a never initialised object reads an unset pointer (C75_never_initialised_refuted), initialising twice leaks the first model (C75_twice_refuted), copies are freed twice (C75_copy_refuted) and a question after a failed load is undefined (C75_ask_unloaded_refuted). Proved for objects initialised once (C75_loaded_partial, C75_not_loaded_partial, C75_trained_partial) and, completely, for the way the manager uses the object (C75_manager).
* **C76** (Training data of any shape is handled): Refuted as stated: C76_shapes_refuted gives exactly the data that can be trained on; for all other data (no observation, a row shorter than the first, more targets than observations) training is undefined instead of reporting. C76_rows_partial: for well-shaped data every row equals the row of a question.
* **C78** (Malformed training files are noticed): Refuted as stated: an unreadable item is dropped and the rest of the row shifts (C78_dropped_refuted); a blank last line becomes an empty row whose first column is undefined (C78_blank_line_refuted). C78_rows_partial says what is read for every text.
* **C79** (The lattice mapper is initialised and destroyed in a safe order): Refuted as stated: the delegate is destroyed before the interpreter that runs on it (C79_delegate_first_refuted). The status (C79_status_partial) and the order of interpreter and model (C79_model_last_partial) are as claimed.
* **C80** (The header's duration is the signal's duration): Refuted as stated for rates of 2^31 Hz or more, which the reader holds as a negative int (C80_huge_rate_refuted); proved for all other accepted files (C80_same_duration_partial).
* **C84** (Polarity has no influence): Refuted as stated when the signals are aligned: CalcUpperEnv adds the signal's mean back to the envelope, so inverting a signal with a non-zero mean can change the lag (C84_alignment_refuted). Proved with both alignments off: for the degraded signal in every mode, for the reference in audio mode (C84_polarity_partial); in speech mode the voice activity detector clamps to -32768..32767, which is not symmetric.
* **C87** (The upper envelope is the magnitude of the analytic signal): Refuted as stated (C87_hilbert_envelope_refuted, C87_above_the_signal_refuted): the inverse transform keeps only the real part, so the result is twice the absolute deviation from the mean with an alternating error (C87_rectified_signal). It lies above the signal when there is no content at half the sample rate (C87_above_partial) and above the mean always (C87_above_mean).
* **C90** (The level at which both recordings were made has no influence): Refuted as stated: C90_level_refuted (the spectrograms have an absolute floor of -45 dB, so what a difference counts for depends on the level). C90_quiet_is_perfect: below a level that depends only on mode, rate and length every comparison is declared perfect. C90_loud_partial: when every band of every frame of both recordings is above the floor, a factor of at least 1 changes nothing (second alignment off).
* **C92** (A wider search never lowers the score): Refuted as stated: offsets outside the window of a patch count as a total of 0, so with negative similarities a wider search can report a smaller total (C92_wider_refuted). Proved: with positive similarities neither vnsim nor the speech score falls (C92_wider_partial); a radius that reaches over both recordings has no influence, in every number type (C92_reaching_radius).
* **C93** (Rounding does not noticeably change the similarity of two patches): Refuted as stated: for three frames of 50 against 98, 8, 97 the computed similarity is more than 0.05 below the exact one, because the variance of a constant patch comes out as about 1e-12 instead of 0 and is multiplied by the other variance (C93_rounding_refuted). Proved: within 4/1000000 where every local variance of both patches is at least 1/10000 (C93_rounding_partial), and within 3/1000000 of 1 for a patch and itself, constant or not (C93_identical).
* **C94** (The computed similarity of two patches is at most 1): Refuted as stated: a nearly constant patch gives a computed similarity above 1.02 (C94_at_most_one_refuted). Proved: between -1 and 1 up to 4/1000000 where every local variance of both patches is at least 1/10000 (C94_at_most_one_partial); at most 4 in magnitude, in every band, without any condition on the variances (C94_at_most_four_partial).
* **C95** (A delayed copy of a recording is aligned exactly): Refuted as stated: C95_copy_aligned_refuted shows a constant sound of twelve samples, delayed by two, for which another lag is chosen (the envelope adds the average back after rectifying). C95_copy_aligned_partial proves it for every sound without constant part and without part at half the sample rate, C95_delayed_copy_partial the consequence for alignment followed by truncation.
* **C96** (The audio taken for the second alignment is the audio of the matched frames): Refuted as stated: C96_matched_audio_refuted shows that in binary64 at 48 kHz the audio of the frames from frame 29 begins one sample early, for every signal. C96_matched_audio_exact_partial proves it in exact arithmetic; C96_reference_audio_partial and C96_degraded_audio_partial prove for every matched pair in binary64 that each end is right or one sample early.
* **C97** (The times reported after the second alignment are the times of the audio compared): Refuted as stated: when the degraded patch ends after its signal, zeros are put in front of its audio and the reported times no longer are those of the samples compared (C97_reported_times_refuted, binary64). Proved in exact arithmetic for every pair that ends before the signals do (C97_reported_times_partial); in binary64 each end can be one sample early (C96).
* **C98** (Only finite levels are compared, and what is undefined counts as silence): Refuted as stated: one infinite entry turns every entry of both spectrograms into NaN (C98_only_finite_levels_refuted). Proved for spectrograms without infinite entries (C98_only_finite_levels_partial); that undefined entries count as silence holds without restriction (C98_undefined_is_silence).
* **C99** (Finite samples give a defined comparison in binary64): Refuted as stated: samples of 2^600 are finite but overflow in the filters; every similarity is NaN, no offset is found and an uninitialised one is read (C99_finite_samples_safe_refuted). Proved when the spectrograms of the two compared signals do not overflow, without the second alignment (C99_no_overflow_returns_partial); samples up to 2^100 and stable filters suffice, with or without the second alignment (C100).
* **C103** (The summary of a column shows its beginning, middle and end): Refuted as stated: PrintSummary prints six instead of five last values, and throws for columns of 8 to 10 or fewer than 5 values (C103_summary_refuted); what is printed of a column of any length is C103_summary_partial
* **C104** (The tables printed on the console are aligned and show the numbers of the result): Refuted as stated: a patch ending after 1000 s makes the row wider than the header (C104_wide_refuted); where the numbers fit their columns the tables are aligned and complete (C104_patches_partial, C104_bands_partial), and the whole verbose output is the stated lines (C104_console_partial)
* **C112** (Warnings about the input are given exactly when they apply): Refuted as stated: recordings of 32002 and 16002 samples at 16000 Hz differ by exactly one second and are warned about (C112_durations_refuted). For equal rates and durations that do not differ by exactly one second the warning is right in binary64 (C112_durations_partial), without rounding always (C112_exact), the warnings about the rate are right in any arithmetic (C112_rates), and the durations shown are those of the reference and the degraded recording (C112_shown)
* **C113** (Incomplete input is announced): Refuted as stated (C113_empty_refuted): a file with two channels and one sample is loaded as an empty recording without any message. C113_quiet_partial, C113_files_partial, C113_missing, C113_fewer, C113_error, C113_loaded and C113_dropped prove the other parts.
* **C119** (A mean similarity lies between the similarities it summarises): Refuted as stated (C119_above_refuted): the summary of a patch whose 21 bands all have the similarity 0.8 reports a similarity above 0.8. Without rounding it holds for every comparison (C119_exact), and in binary64 the range is left by less than a billionth (C119_near_partial).

## 5. Trusted base

* the Coq kernel (`coqc`; `vcheck` re-checks the compiled files with `coqchk`);
* the axioms printed by `Print Assumptions` beneath each theorem, listed in section 5.1;
* the reading of the C++ code into `Model/`, including the oracles and simplifications of section 2.

No axiom, parameter or section-less hypothesis is declared anywhere in `theories/`.  mathcomp, std++, Iris, Equations and
CoqHammer are not used.  Flocq, Coquelicot and Interval are used in some proofs; they add no axioms of their own to the
lists below.

### 5.1 Assumptions per theorem

* **none**: closed under the global context.
* **R**: the standard library's real numbers: `ClassicalDedekindReals.sig_forall_dec`,
  `ClassicalDedekindReals.sig_not_dec`, `FunctionalExtensionality.functional_extensionality_dep` (if only some of them
  occur they are named).
* **C**: `Classical_Prop.classic`.
* **P**: primitive types and operations, which `Print Assumptions` lists although they are implemented by the kernel:
  `abs`, `add`, `classify`, `compare`, `div`, `eqb`, `float`, `frshiftexp`, `ldshiftexp`, `leb`, `ltb`, `mul`, `next_down`, `next_up`, `normfr_mantissa`, `of_uint63`, `opp`, `sqrt`, `sub` of `PrimFloat`; `add`, `addc`, `addcarryc`, `addmuldiv`, `compare`, `div`, `diveucl`, `diveucl_21`, `eqb`, `head0`, `int`, `land`, `leb`, `lor`, `lsl`, `lsr`, `ltb`, `lxor`, `mod`, `mul`, `mulc`, `sub`, `subc`, `subcarryc`, `tail0` of `PrimInt63`.  A theorem marked P uses some of them.
* **S(…)**: the named specifications from `Coq.Floats.FloatAxioms`.  In all: `Prim2SF_SF2Prim`, `Prim2SF_valid`, `SF2Prim_Prim2SF`, `abs_spec`, `add_spec`, `classify_spec`, `compare_spec`, `div_spec`, `eqb_spec`, `frshiftexp_spec`, `ldshiftexp_spec`, `leb_spec`, `ltb_spec`, `mul_spec`, `next_down_spec`, `next_up_spec`, `normfr_mantissa_spec`, `of_uint63_spec`, `opp_spec`, `sqrt_spec`, `sub_spec`.
* **U**: the specifications of 63-bit integers from `Coq.Numbers.Cyclic.Int63.Uint63` (through the Interval tactic): `add_spec`, `addc_def_spec`, `addcarryc_def_spec`, `addmuldiv_def_spec`, `compare_def_spec`, `div_spec`, `diveucl_21_spec`, `diveucl_def_spec`, `eqb_correct`, `eqb_refl`, `head0_spec`, `land_spec`, `leb_spec`, `lor_spec`, `lsl_spec`, `lsr_spec`, `ltb_spec`, `lxor_spec`, `mod_spec`, `mul_spec`, `mulc_spec`, `of_to_Z`, `sub_spec`, `subc_def_spec`, `subcarryc_def_spec`, `tail0_spec`.

| theorem | file | assumptions |
|---|---|---|
| `C01_no_audio_section` | ApiProps.v | none |
| `C01_rate_rejected` | ApiProps.v | none |
| `C01_otherwise_load_status` | ApiProps.v | none |
| `C02_never_initialised` | ApiProps.v | none |
| `C02_once_initialised` | ApiProps.v | none |
| `C02_api_partial` | ApiProps.v | none |
| `C02_uninitialised_rate_refuted` | ApiProps.v | none |
| `C03_failed_load_refuted` | ApiProps.v | none |
| `C03_failed_init_partial` | ApiProps.v | none |
| `C03_reinit_case_refuted` | ApiProps.v | P |
| `C03_rate_kept_refuted` | ApiProps.v | P |
| `C04_rates_differ` | ApiProps.v | none |
| `C04_rates_equal_not_realigned` | ApiProps.v | none |
| `C04_rates_equal` | ApiProps.v | R |
| `C04_rates_equal_binary64` | ApiProps.v | R + C + P + S(Prim2SF_SF2Prim, Prim2SF_valid, SF2Prim_Prim2SF, add_spec, div_spec, ltb_spec, mul_spec, sub_spec) |
| `C05_history_irrelevant` | ApiProps.v | none |
| `C05_api` | ApiProps.v | none |
| `C05_latest_configuration` | ApiProps.v | none |
| `C06_degraded_argument` | ApiProps.v | none |
| `C06_scaled_aligned` | ApiProps.v | R + C |
| `C07_short_audio_partial` | ApiProps.v | none |
| `C07_empty_refuted` | ApiProps.v | P |
| `C07_padded_refuted` | ApiProps.v | P |
| `C08_short_speech_refuted` | ApiProps.v | none |
| `C08_window_partial` | ApiProps.v | none |
| `C08_case_refuted` | ApiProps.v | P |
| `C09_audio_score_range` | MapperProps.v | P + S(leb_spec, ltb_spec) |
| `C09_reported_score_range` | MapperProps.v | P + S(leb_spec, ltb_spec) |
| `C10_undefined_is_not_perfect_refuted` | MapperProps.v | P |
| `C10_every_run_refuted` | MapperProps.v | P + S(SF2Prim_Prim2SF, eqb_spec, ltb_spec) |
| `C10_speech_partial` | MapperProps.v | P + S(SF2Prim_Prim2SF, add_spec, eqb_spec, ltb_spec, mul_spec, sub_spec) |
| `C11_speech_mapping` | MapperProps.v | R + C + P + S(Prim2SF_SF2Prim, Prim2SF_valid, SF2Prim_Prim2SF, abs_spec, add_spec, classify_spec, compare_spec, div_spec, eqb_spec, frshiftexp_spec, ldshiftexp_spec, ltb_spec, mul_spec, next_down_spec, next_up_spec, normfr_mantissa_spec, of_uint63_spec, opp_spec, sqrt_spec, sub_spec) + U |
| `C11_fit_constants` | MapperProps.v | R + C |
| `C12_dissimilar_scores_one` | ResultProps.v | none |
| `C13_aggregates` | ResultProps.v | none |
| `C13_energy` | ResultProps.v | none |
| `C14_lowest_decile` | ResultProps.v | R |
| `C14_order_irrelevant` | ResultProps.v | R |
| `C14_message_binary64` | ResultProps.v | R + C + P + S(Prim2SF_SF2Prim, Prim2SF_valid, SF2Prim_Prim2SF, ltb_spec, mul_spec) |
| `C15_stddev_of_all_frames` | ResultProps.v | R |
| `C15_matched_patches` | ResultProps.v | R |
| `C15_nonnegative_binary64` | ResultProps.v | R + C + P + S(Prim2SF_SF2Prim, Prim2SF_valid, SF2Prim_Prim2SF, ltb_spec, sqrt_spec) |
| `C16_other_lengths_refuted` | ResultProps.v | R |
| `C16_equal_means_partial` | ResultProps.v | R |
| `C17_too_short_is_error` | PatchProps.v | none |
| `C17_audio_patches_tile` | PatchProps.v | none |
| `C18_no_full_patch_left_refuted` | PatchProps.v | none |
| `C18_rest_partial` | PatchProps.v | none |
| `C19_speech_patches_are_active_grid_patches` | PatchProps.v | R |
| `C20_absent_iff_three_quiet` | PatchProps.v | none |
| `C21_vad_inside_when_hop_integral_partial` | PatchProps.v | R |
| `C21_vad_inside_refuted` | PatchProps.v | R |
| `C22_patches_are_columns` | PatchProps.v | none |
| `C23_degraded_patch` | MatchProps.v | none |
| `C24_time_order` | MatchProps.v | none |
| `C25_best_total` | MatchProps.v | R |
| `C25_best_total_binary64` | MatchProps.v | R + C + P + S(Prim2SF_SF2Prim, Prim2SF_valid, SF2Prim_Prim2SF, add_spec, ltb_spec, sub_spec) |
| `C26_inside_window_partial` | MatchProps.v | R + C + P + S(Prim2SF_SF2Prim, Prim2SF_valid, SF2Prim_Prim2SF, add_spec, ltb_spec, sub_spec) |
| `C26_inside_window_refuted` | MatchProps.v | P |
| `C27_radius_safe_partial` | MatchProps.v | R |
| `C27_radius_safe_refuted` | MatchProps.v | P |
| `C28_scored_patches_audio` | MatchProps.v | R + C + P + S(Prim2SF_SF2Prim, Prim2SF_valid, SF2Prim_Prim2SF, ltb_spec, sub_spec) |
| `C28_scored_patches_speech` | MatchProps.v | R |
| `C29_reported_results` | MatchProps.v | none |
| `C30_realignment` | MatchProps.v | none |
| `C31_shift_only` | AlignProps.v | R |
| `C31_shift_only_binary64` | AlignProps.v | R + C + P + S(Prim2SF_SF2Prim, Prim2SF_valid, SF2Prim_Prim2SF, div_spec, ltb_spec) |
| `C32_first_maximiser_partial` | AlignProps.v | R |
| `C32_lag_search_partial` | AlignProps.v | R |
| `C32_short_signals_refuted` | AlignProps.v | R |
| `C33_equal_lengths` | AlignProps.v | none |
| `C34_no_failure_partial` | AlignProps.v | R |
| `C34_no_failure_binary64_partial` | AlignProps.v | R + C + P + S(Prim2SF_SF2Prim, Prim2SF_valid, SF2Prim_Prim2SF, div_spec, ltb_spec, mul_spec) |
| `C34_longer_degraded_refuted` | AlignProps.v | P |
| `C35_slice_partial` | AlignProps.v | R |
| `C35_past_end_refuted` | AlignProps.v | P |
| `C36_hann_weights` | SignalProps.v | R + C |
| `C36_windowing_shrinks` | SignalProps.v | R + C |
| `C37_difference_equation` | SignalProps.v | R |
| `C37_pieces` | SignalProps.v | none |
| `C37_linear` | SignalProps.v | R |
| `C38_spectrogram_geometry` | SignalProps.v | none |
| `C38_rms` | SignalProps.v | R |
| `C38_too_short` | SignalProps.v | none |
| `C39_positive_hop_refuted` | SignalProps.v | R + C |
| `C39_hop_positive_from_44Hz_partial` | SignalProps.v | R |
| `C40_center_frequencies` | SignalProps.v | R + C |
| `C40_spectrogram_bands` | SignalProps.v | R + C |
| `C41_common_nonnegative_floor` | SimilarityProps.v | R + C |
| `C41_closed_form` | SimilarityProps.v | R + C |
| `C42_self_similarity_is_one` | SimilarityProps.v | R |
| `C42_symmetric` | SimilarityProps.v | R |
| `C42_symmetric_binary64` | SimilarityProps.v | P + S(SF2Prim_Prim2SF, add_spec, mul_spec) |
| `C42_bounded` | SimilarityProps.v | R |
| `C43_weighted_average` | SimilarityProps.v | R |
| `C43_smoothing_laws` | SimilarityProps.v | R(functional_extensionality_dep, sig_forall_dec) |
| `C44_channels` | AudioFileProps.v | none |
| `C44_mono` | AudioFileProps.v | none |
| `C44_mean` | AudioFileProps.v | R |
| `C44_int16` | AudioFileProps.v | R + C + P + S(Prim2SF_SF2Prim, Prim2SF_valid, SF2Prim_Prim2SF, div_spec, leb_spec, ltb_spec, mul_spec) |
| `C44_file` | AudioFileProps.v | R |
| `C45_level` | AudioFileProps.v | R + C |
| `C46_silent_degraded_refuted` | AudioFileProps.v | P + S(SF2Prim_Prim2SF, abs_spec, div_spec, eqb_spec, mul_spec, sub_spec) |
| `C47_round_trip_partial` | AudioFileProps.v | none |
| `C47_accepted_partial` | AudioFileProps.v | none |
| `C47_termination_partial` | AudioFileProps.v | none |
| `C47_sample_width_refuted` | AudioFileProps.v | none |
| `C48_odd_chunk_refuted` | AudioFileProps.v | none |
| `C49_over_read_refuted` | AudioFileProps.v | none |
| `C49_sequential_reads_partial` | AudioFileProps.v | none |
| `C50_forward` | FftProps.v | R |
| `C50_symmetric` | FftProps.v | R |
| `C50_round_trip` | FftProps.v | R |
| `C50_layout` | FftProps.v | none |
| `C50_layout_spectrum` | FftProps.v | R |
| `C51_size` | FftProps.v | none |
| `C51_next_power` | FftProps.v | none |
| `C51_multiply` | FftProps.v | none |
| `C52_batch_round_trip` | CliProps.v | none |
| `C53_no_ub_refuted` | CliProps.v | none |
| `C53_defined_when_two_columns_partial` | CliProps.v | none |
| `C54_isolated_and_ordered_partial` | CliProps.v | none |
| `C54_paths` | CliProps.v | none |
| `C54_failed_start` | CliProps.v | none |
| `C54_exception_refuted` | CliProps.v | none |
| `C54_malformed_file_refuted` | CliProps.v | none |
| `C54_short_file_ends_batch_refuted` | CliProps.v | P |
| `C54_empty_file_ends_batch_refuted` | CliProps.v | P |
| `C55_one_header_one_line_per_result` | CliProps.v | none |
| `C55_content_kept` | CliProps.v | none |
| `C55_same_columns` | CliProps.v | none |
| `C56_crash_keeps_earlier_rows` | CliProps.v | none |
| `C56_crash_keeps_debug_text` | CliProps.v | none |
| `C56_undisturbed` | CliProps.v | none |
| `C57_read_back_partial` | CliProps.v | none |
| `C57_columns` | CliProps.v | none |
| `C57_comma_in_path_refuted` | CliProps.v | none |
| `C57_mixed_modes_refuted` | CliProps.v | P |
| `C58_required_files` | CliProps.v | none |
| `C58_batch_overrides` | CliProps.v | none |
| `C58_one_pair` | CliProps.v | none |
| `C58_no_other_outcome` | CliProps.v | none |
| `C59_svr_slots` | MapperProps.v | none |
| `C59_names_distinct` | MapperProps.v | none |
| `C59_lattice_slots` | MapperProps.v | none |
| `C59_none_missing` | MapperProps.v | none |
| `C60_transpose` | MatrixProps.v | none |
| `C60_split_join` | MatrixProps.v | none |
| `C60_join_split` | MatrixProps.v | none |
| `C60_order` | MatrixProps.v | none |
| `C60_outside` | MatrixProps.v | none |
| `C60_statistics` | MatrixProps.v | R |
| `C61_equality_refuted` | MatrixProps.v | R |
| `C61_equality_partial` | MatrixProps.v | R |
| `C62_filter_general_coefficients_refuted` | SignalProps.v | R |
| `C63_similarity_formula` | SimilarityProps.v | R |
| `C64_loading_is_safe` | AudioFileProps.v | none |
| `C65_malformed_file_refuted` | AudioFileProps.v | none |
| `C65_missing_file_partial` | AudioFileProps.v | none |
| `C66_lost_patches_count_as_silence_refuted` | ResultProps.v | P |
| `C67_patch_frames_refuted` | ResultProps.v | P |
| `C67_patch_frames_partial` | ResultProps.v | R + C + P + S(Prim2SF_SF2Prim, Prim2SF_valid, SF2Prim_Prim2SF, add_spec, div_spec, mul_spec, sub_spec) |
| `C68_window_80ms_hop_quarter` | SignalProps.v | R + C + P + S(Prim2SF_SF2Prim, Prim2SF_valid, SF2Prim_Prim2SF, mul_spec) |
| `C69_structure_denominator_positive` | SimilarityProps.v | R + C + P + S(Prim2SF_SF2Prim, Prim2SF_valid, SF2Prim_Prim2SF, add_spec, eqb_spec, leb_spec, ltb_spec, sqrt_spec) |
| `C70_header_of_prefix` | AudioFileProps.v | none |
| `C70_cut_is_silence` | AudioFileProps.v | none |
| `C70_rest_ignored` | AudioFileProps.v | none |
| `C70_no_sample` | AudioFileProps.v | none |
| `C71_nothing_lost_partial` | CliProps.v | none |
| `C71_two_headers_refuted` | CliProps.v | none |
| `C72_console_defined` | CliProps.v | none |
| `C72_console_quiet` | CliProps.v | none |
| `C73_second_alignment_returns` | FineProps.v | R |
| `C73_second_alignment_partial` | FineProps.v | R + C + P + S(Prim2SF_SF2Prim, Prim2SF_valid, SF2Prim_Prim2SF, add_spec, div_spec, ltb_spec, mul_spec, sub_spec) |
| `C73_rounding_refuted` | FineProps.v | P |
| `C74_long_enough_signals_compare` | TotalProps.v | R |
| `C74_audio_48000` | TotalProps.v | R |
| `C75_loaded_partial` | TrainingProps.v | none |
| `C75_not_loaded_partial` | TrainingProps.v | none |
| `C75_trained_partial` | TrainingProps.v | none |
| `C75_manager` | TrainingProps.v | none |
| `C75_never_initialised_refuted` | TrainingProps.v | none |
| `C75_twice_refuted` | TrainingProps.v | none |
| `C75_copy_refuted` | TrainingProps.v | none |
| `C75_ask_unloaded_refuted` | TrainingProps.v | none |
| `C76_rows_partial` | TrainingProps.v | none |
| `C76_shapes_refuted` | TrainingProps.v | none |
| `C77_read_back` | TrainingProps.v | none |
| `C78_rows_partial` | TrainingProps.v | none |
| `C78_dropped_refuted` | TrainingProps.v | none |
| `C78_blank_line_refuted` | TrainingProps.v | none |
| `C79_status_partial` | TrainingProps.v | none |
| `C79_model_last_partial` | TrainingProps.v | none |
| `C79_delegate_first_refuted` | TrainingProps.v | none |
| `C80_same_duration_partial` | DurationProps.v | none |
| `C80_huge_rate_refuted` | DurationProps.v | none |
| `C81_loudness_is_removed` | InvarianceProps.v | R + C |
| `C82_self_is_perfect` | IdentityProps.v | R + C |
| `C82_self_speech_score` | IdentityProps.v | R + C + P + S(Prim2SF_SF2Prim, Prim2SF_valid, SF2Prim_Prim2SF, abs_spec, add_spec, classify_spec, compare_spec, div_spec, eqb_spec, frshiftexp_spec, ldshiftexp_spec, ltb_spec, mul_spec, next_down_spec, next_up_spec, normfr_mantissa_spec, of_uint63_spec, opp_spec, sqrt_spec, sub_spec) + U |
| `C82_self_score_is_constant` | IdentityProps.v | R + C |
| `C83_one_at_a_time` | LoadProps.v | none |
| `C83_same_as_alone` | LoadProps.v | none |
| `C83_model_of_some_call` | LoadProps.v | none |
| `C83_no_deadlock` | LoadProps.v | none |
| `C83_all_return` | LoadProps.v | none |
| `C84_polarity_partial` | InvarianceProps.v | R + C |
| `C84_alignment_refuted` | InvarianceProps.v | R + C |
| `C85_similarities_in_range` | RangeProps.v | R |
| `C85_score_in_range` | RangeProps.v | R |
| `C86_session` | FftHeapProps.v | none |
| `C86_cross_correlation` | FftHeapProps.v | none |
| `C86_envelope` | FftHeapProps.v | none |
| `C86_needs_memory` | FftHeapProps.v | none |
| `C87_hilbert_envelope_refuted` | EnvelopeProps.v | R |
| `C87_above_the_signal_refuted` | EnvelopeProps.v | R |
| `C87_rectified_signal` | EnvelopeProps.v | R |
| `C87_above_partial` | EnvelopeProps.v | R |
| `C87_above_mean` | EnvelopeProps.v | R |
| `C88_stable` | GammatoneProps.v | R + C |
| `C88_unit_gain` | GammatoneProps.v | R + C |
| `C89_each_row_its_own_band` | BankArraysProps.v | R + C |
| `C89_history` | BankArraysProps.v | R + C |
| `C89_too_short` | BankArraysProps.v | R + C |
| `C90_level_refuted` | LevelProps.v | R + C |
| `C90_quiet_is_perfect` | LevelProps.v | R + C |
| `C90_loud_partial` | LevelProps.v | R + C |
| `C91_one_means_identical` | LevelProps.v | R |
| `C91_patches_of_a_run` | LevelProps.v | R + C |
| `C92_wider_refuted` | WiderProps.v | P |
| `C92_wider_partial` | WiderProps.v | R + C + P + S(Prim2SF_SF2Prim, Prim2SF_valid, SF2Prim_Prim2SF, abs_spec, add_spec, classify_spec, compare_spec, div_spec, eqb_spec, frshiftexp_spec, ldshiftexp_spec, ltb_spec, mul_spec, next_down_spec, next_up_spec, normfr_mantissa_spec, of_uint63_spec, opp_spec, sqrt_spec, sub_spec) + U |
| `C92_reaching_radius` | WiderProps.v | none |
| `C93_rounding_refuted` | RoundProps.v | R + C + P + S(Prim2SF_SF2Prim, Prim2SF_valid, SF2Prim_Prim2SF, abs_spec, add_spec, classify_spec, compare_spec, div_spec, eqb_spec, frshiftexp_spec, ldshiftexp_spec, ltb_spec, mul_spec, next_down_spec, next_up_spec, normfr_mantissa_spec, of_uint63_spec, opp_spec, sqrt_spec, sub_spec) + U |
| `C93_rounding_partial` | RoundProps.v | R + C + P + S(Prim2SF_SF2Prim, Prim2SF_valid, SF2Prim_Prim2SF, add_spec, div_spec, ltb_spec, mul_spec, sqrt_spec, sub_spec) |
| `C93_identical` | RoundProps.v | R + C + P + S(Prim2SF_SF2Prim, Prim2SF_valid, SF2Prim_Prim2SF, add_spec, div_spec, ltb_spec, mul_spec, sqrt_spec, sub_spec) |
| `C94_at_most_one_refuted` | RoundProps.v | R + C + P + S(Prim2SF_SF2Prim, Prim2SF_valid, SF2Prim_Prim2SF, div_spec, ltb_spec) |
| `C94_at_most_one_partial` | RoundProps.v | R + C + P + S(Prim2SF_SF2Prim, Prim2SF_valid, SF2Prim_Prim2SF, add_spec, div_spec, ltb_spec, mul_spec, sqrt_spec, sub_spec) |
| `C94_at_most_four_partial` | RoundProps.v | R + C + P + S(Prim2SF_SF2Prim, Prim2SF_valid, SF2Prim_Prim2SF, add_spec, div_spec, ltb_spec, mul_spec, sqrt_spec, sub_spec) |
| `C95_copy_aligned_refuted` | CopyProps.v | R |
| `C95_copy_aligned_partial` | CopyProps.v | R |
| `C95_delayed_copy_partial` | CopyProps.v | R |
| `C96_matched_audio_refuted` | PieceProps.v | R + C + P + S(Prim2SF_SF2Prim, Prim2SF_valid, SF2Prim_Prim2SF, add_spec, div_spec, ltb_spec, mul_spec, sub_spec) |
| `C96_matched_audio_exact_partial` | PieceProps.v | R |
| `C96_reference_audio_partial` | PieceProps.v | R + C + P + S(Prim2SF_SF2Prim, Prim2SF_valid, SF2Prim_Prim2SF, add_spec, div_spec, ltb_spec, mul_spec, sub_spec) |
| `C96_degraded_audio_partial` | PieceProps.v | R + C + P + S(Prim2SF_SF2Prim, Prim2SF_valid, SF2Prim_Prim2SF, add_spec, div_spec, ltb_spec, mul_spec, sub_spec) |
| `C97_reported_times_refuted` | TimesProps.v | P |
| `C97_reported_times_partial` | TimesProps.v | R |
| `C98_only_finite_levels_refuted` | UndefinedProps.v | P + S(Prim2SF_SF2Prim, Prim2SF_valid, SF2Prim_Prim2SF, eqb_spec, ltb_spec) |
| `C98_only_finite_levels_partial` | UndefinedProps.v | R + C + P + S(Prim2SF_SF2Prim, Prim2SF_valid, SF2Prim_Prim2SF, abs_spec, eqb_spec, leb_spec, ltb_spec, mul_spec, sub_spec) |
| `C98_undefined_is_silence` | UndefinedProps.v | R + C + P + S(Prim2SF_SF2Prim, Prim2SF_valid, SF2Prim_Prim2SF, abs_spec, eqb_spec, leb_spec, ltb_spec, mul_spec) |
| `C99_finite_samples_safe_refuted` | UndefinedProps.v | P + S(Prim2SF_SF2Prim, Prim2SF_valid, SF2Prim_Prim2SF, eqb_spec, ltb_spec) |
| `C99_no_overflow_returns_partial` | UndefinedProps.v | R + C + P + S(Prim2SF_SF2Prim, Prim2SF_valid, SF2Prim_Prim2SF, abs_spec, add_spec, div_spec, eqb_spec, leb_spec, ltb_spec, mul_spec, sqrt_spec, sub_spec) |
| `C100_band_bounded` | StableProps.v | R + C + P + S(Prim2SF_SF2Prim, Prim2SF_valid, SF2Prim_Prim2SF, abs_spec, add_spec, leb_spec, ltb_spec, mul_spec, sub_spec) |
| `C100_spectrogram_finite` | StableProps.v | R + C + P + S(Prim2SF_SF2Prim, Prim2SF_valid, SF2Prim_Prim2SF, abs_spec, add_spec, div_spec, leb_spec, ltb_spec, mul_spec, sqrt_spec, sub_spec) |
| `C100_comparison_defined` | StableProps.v | R + C + P + S(Prim2SF_SF2Prim, Prim2SF_valid, SF2Prim_Prim2SF, abs_spec, add_spec, div_spec, eqb_spec, leb_spec, ltb_spec, mul_spec, sqrt_spec, sub_spec) |
| `C101_filters_stable` | AccurateProps.v | R + C + P + S(Prim2SF_SF2Prim, Prim2SF_valid, SF2Prim_Prim2SF, abs_spec, add_spec, classify_spec, compare_spec, div_spec, eqb_spec, frshiftexp_spec, ldshiftexp_spec, leb_spec, ltb_spec, mul_spec, next_down_spec, next_up_spec, normfr_mantissa_spec, of_uint63_spec, opp_spec, sqrt_spec, sub_spec) + U |
| `C101_level` | AccurateProps.v | R + C + P + S(Prim2SF_SF2Prim, Prim2SF_valid, SF2Prim_Prim2SF, abs_spec, add_spec, classify_spec, compare_spec, div_spec, eqb_spec, frshiftexp_spec, ldshiftexp_spec, leb_spec, ltb_spec, mul_spec, next_down_spec, next_up_spec, normfr_mantissa_spec, of_uint63_spec, opp_spec, sqrt_spec, sub_spec) + U |
| `C101_silence_becomes_undefined` | AccurateProps.v | R + C + P + S(Prim2SF_SF2Prim, Prim2SF_valid, SF2Prim_Prim2SF, abs_spec, add_spec, classify_spec, compare_spec, div_spec, eqb_spec, frshiftexp_spec, ldshiftexp_spec, leb_spec, ltb_spec, mul_spec, next_down_spec, next_up_spec, normfr_mantissa_spec, of_uint63_spec, opp_spec, sqrt_spec, sub_spec) + U |
| `C101_comparison_defined` | AccurateProps.v | R + C + P + S(Prim2SF_SF2Prim, Prim2SF_valid, SF2Prim_Prim2SF, abs_spec, add_spec, classify_spec, compare_spec, div_spec, eqb_spec, frshiftexp_spec, ldshiftexp_spec, leb_spec, ltb_spec, mul_spec, next_down_spec, next_up_spec, normfr_mantissa_spec, of_uint63_spec, opp_spec, sqrt_spec, sub_spec) + U |
| `C102_of_data` | MatrixClassProps.v | none |
| `C102_of_columns` | MatrixClassProps.v | none |
| `C102_linear_access` | MatrixClassProps.v | none |
| `C102_assignment` | MatrixClassProps.v | none |
| `C102_rows` | MatrixClassProps.v | none |
| `C102_columns` | MatrixClassProps.v | none |
| `C102_column` | MatrixClassProps.v | none |
| `C102_span` | MatrixClassProps.v | none |
| `C102_row` | MatrixClassProps.v | none |
| `C102_row_part` | MatrixClassProps.v | none |
| `C102_to_vector` | MatrixClassProps.v | none |
| `C102_set_row` | MatrixClassProps.v | none |
| `C102_set_column` | MatrixClassProps.v | none |
| `C102_scalar` | MatrixClassProps.v | none |
| `C102_elementwise` | MatrixClassProps.v | none |
| `C102_join` | MatrixClassProps.v | none |
| `C102_shape` | MatrixClassProps.v | none |
| `C102_statistics_shape` | MatrixClassProps.v | none |
| `C103_summary_refuted` | MatrixClassProps.v | R |
| `C103_summary_partial` | MatrixClassProps.v | none |
| `C104_wide_refuted` | TableProps.v | R |
| `C104_patches_partial` | TableProps.v | none |
| `C104_bands_partial` | TableProps.v | none |
| `C104_console_partial` | TableProps.v | none |
| `C105_samples` | WavFilesProps.v | R + C + P + S(Prim2SF_SF2Prim, Prim2SF_valid, SF2Prim_Prim2SF, abs_spec, add_spec, div_spec, eqb_spec, leb_spec, opp_spec) |
| `C105_mean` | WavFilesProps.v | R + C + P + S(Prim2SF_SF2Prim, Prim2SF_valid, SF2Prim_Prim2SF, abs_spec, add_spec, div_spec, eqb_spec, leb_spec, opp_spec) |
| `C105_channel_order` | WavFilesProps.v | R + C + P + S(Prim2SF_SF2Prim, Prim2SF_valid, SF2Prim_Prim2SF, add_spec, div_spec, opp_spec) |
| `C105_files` | WavFilesProps.v | R + C + P + S(Prim2SF_SF2Prim, Prim2SF_valid, SF2Prim_Prim2SF, abs_spec, add_spec, classify_spec, compare_spec, div_spec, eqb_spec, frshiftexp_spec, ldshiftexp_spec, leb_spec, ltb_spec, mul_spec, next_down_spec, next_up_spec, normfr_mantissa_spec, of_uint63_spec, opp_spec, sqrt_spec, sub_spec) + U |
| `C106_patch` | SelfProps.v | R + C + P + S(Prim2SF_SF2Prim, Prim2SF_valid, SF2Prim_Prim2SF, abs_spec, add_spec, div_spec, leb_spec, ltb_spec, mul_spec, sqrt_spec, sub_spec) |
| `C106_similarity` | SelfProps.v | R + C + P + S(Prim2SF_SF2Prim, Prim2SF_valid, SF2Prim_Prim2SF, abs_spec, add_spec, classify_spec, compare_spec, div_spec, eqb_spec, frshiftexp_spec, ldshiftexp_spec, leb_spec, ltb_spec, mul_spec, next_down_spec, next_up_spec, normfr_mantissa_spec, of_uint63_spec, opp_spec, sqrt_spec, sub_spec) + U |
| `C106_returned` | SelfProps.v | R + C + P + S(Prim2SF_SF2Prim, Prim2SF_valid, SF2Prim_Prim2SF, abs_spec, add_spec, classify_spec, compare_spec, div_spec, eqb_spec, frshiftexp_spec, ldshiftexp_spec, leb_spec, ltb_spec, mul_spec, next_down_spec, next_up_spec, normfr_mantissa_spec, of_uint63_spec, opp_spec, sqrt_spec, sub_spec) + U |
| `C107_level` | LevelMatchProps.v | R + C + P + S(Prim2SF_SF2Prim, Prim2SF_valid, SF2Prim_Prim2SF, abs_spec, add_spec, classify_spec, compare_spec, div_spec, eqb_spec, frshiftexp_spec, ldshiftexp_spec, leb_spec, ltb_spec, mul_spec, next_down_spec, next_up_spec, normfr_mantissa_spec, of_uint63_spec, opp_spec, sqrt_spec, sub_spec) + U |
| `C107_matched` | LevelMatchProps.v | R + C + P + S(Prim2SF_SF2Prim, Prim2SF_valid, SF2Prim_Prim2SF, abs_spec, add_spec, classify_spec, compare_spec, div_spec, eqb_spec, frshiftexp_spec, ldshiftexp_spec, leb_spec, ltb_spec, mul_spec, next_down_spec, next_up_spec, normfr_mantissa_spec, of_uint63_spec, opp_spec, sqrt_spec, sub_spec) + U |
| `C108_values` | LagProps.v | R + C + P + S(Prim2SF_SF2Prim, Prim2SF_valid, SF2Prim_Prim2SF, add_spec, div_spec, mul_spec, opp_spec, sub_spec) |
| `C108_nearly_best` | LagProps.v | R + C + P + S(Prim2SF_SF2Prim, Prim2SF_valid, SF2Prim_Prim2SF, add_spec, div_spec, ltb_spec, mul_spec, opp_spec, sub_spec) |
| `C108_best` | LagProps.v | R + C + P + S(Prim2SF_SF2Prim, Prim2SF_valid, SF2Prim_Prim2SF, add_spec, div_spec, ltb_spec, mul_spec, opp_spec, sub_spec) |
| `C109_envelope` | EnvAlignProps.v | R + C + P + S(Prim2SF_SF2Prim, Prim2SF_valid, SF2Prim_Prim2SF, abs_spec, add_spec, div_spec, mul_spec, sub_spec) |
| `C109_alignment` | EnvAlignProps.v | R + C + P + S(Prim2SF_SF2Prim, Prim2SF_valid, SF2Prim_Prim2SF, abs_spec, add_spec, div_spec, ltb_spec, mul_spec, opp_spec, sub_spec) |
| `C109_self` | EnvAlignProps.v | R + C + P + S(Prim2SF_SF2Prim, Prim2SF_valid, SF2Prim_Prim2SF, abs_spec, add_spec, classify_spec, compare_spec, div_spec, eqb_spec, frshiftexp_spec, ldshiftexp_spec, leb_spec, ltb_spec, mul_spec, next_down_spec, next_up_spec, normfr_mantissa_spec, of_uint63_spec, opp_spec, sqrt_spec, sub_spec) + U |
| `C110_formula` | RatingProps.v | R + C + P + S(Prim2SF_SF2Prim, Prim2SF_valid, SF2Prim_Prim2SF, abs_spec, add_spec, classify_spec, compare_spec, div_spec, eqb_spec, frshiftexp_spec, ldshiftexp_spec, ltb_spec, mul_spec, next_down_spec, next_up_spec, normfr_mantissa_spec, of_uint63_spec, opp_spec, sqrt_spec, sub_spec) + U |
| `C110_self` | RatingProps.v | R + C + P + S(Prim2SF_SF2Prim, Prim2SF_valid, SF2Prim_Prim2SF, abs_spec, add_spec, classify_spec, compare_spec, div_spec, eqb_spec, frshiftexp_spec, ldshiftexp_spec, leb_spec, ltb_spec, mul_spec, next_down_spec, next_up_spec, normfr_mantissa_spec, of_uint63_spec, opp_spec, sqrt_spec, sub_spec) + U |
| `C110_files` | RatingProps.v | R + C + P + S(Prim2SF_SF2Prim, Prim2SF_valid, SF2Prim_Prim2SF, abs_spec, add_spec, classify_spec, compare_spec, div_spec, eqb_spec, frshiftexp_spec, ldshiftexp_spec, leb_spec, ltb_spec, mul_spec, next_down_spec, next_up_spec, normfr_mantissa_spec, of_uint63_spec, opp_spec, sqrt_spec, sub_spec) + U |
| `C111_same` | DelayProps.v | R + C + P + S(Prim2SF_SF2Prim, Prim2SF_valid, SF2Prim_Prim2SF, abs_spec, add_spec, div_spec, ltb_spec, mul_spec, opp_spec, sub_spec) |
| `C111_scores` | DelayProps.v | R + C + P + S(Prim2SF_SF2Prim, Prim2SF_valid, SF2Prim_Prim2SF, abs_spec, add_spec, classify_spec, compare_spec, div_spec, eqb_spec, frshiftexp_spec, ldshiftexp_spec, leb_spec, ltb_spec, mul_spec, next_down_spec, next_up_spec, normfr_mantissa_spec, of_uint63_spec, opp_spec, sqrt_spec, sub_spec) + U |
| `C112_durations_refuted` | WarningProps.v | P |
| `C112_durations_partial` | WarningProps.v | R + C + P + S(Prim2SF_SF2Prim, Prim2SF_valid, SF2Prim_Prim2SF, abs_spec, div_spec, ltb_spec, sub_spec) |
| `C112_exact` | WarningProps.v | R |
| `C112_rates` | WarningProps.v | none |
| `C112_shown` | WarningProps.v | none |
| `C113_empty_refuted` | LoadLogProps.v | P |
| `C113_quiet_partial` | LoadLogProps.v | none |
| `C113_files_partial` | LoadLogProps.v | none |
| `C113_missing` | LoadLogProps.v | none |
| `C113_fewer` | LoadLogProps.v | none |
| `C113_error` | LoadLogProps.v | none |
| `C113_loaded` | LoadLogProps.v | none |
| `C113_dropped` | LoadLogProps.v | none |
| `C114_band` | FilterAccProps.v | R + C + P + S(Prim2SF_SF2Prim, Prim2SF_valid, SF2Prim_Prim2SF, add_spec, div_spec, mul_spec, sub_spec) |
| `C114_level` | FilterAccProps.v | R + C + P + S(Prim2SF_SF2Prim, Prim2SF_valid, SF2Prim_Prim2SF, abs_spec, add_spec, div_spec, leb_spec, mul_spec, sqrt_spec, sub_spec) |
| `C114_spectrogram` | FilterAccProps.v | R + C + P + S(Prim2SF_SF2Prim, Prim2SF_valid, SF2Prim_Prim2SF, abs_spec, add_spec, div_spec, leb_spec, ltb_spec, mul_spec, sqrt_spec, sub_spec) |
| `C115_filters` | FilterBankProps.v | R + C + P + S(Prim2SF_SF2Prim, Prim2SF_valid, SF2Prim_Prim2SF, abs_spec, add_spec, classify_spec, compare_spec, div_spec, eqb_spec, frshiftexp_spec, ldshiftexp_spec, leb_spec, ltb_spec, mul_spec, next_down_spec, next_up_spec, normfr_mantissa_spec, of_uint63_spec, opp_spec, sqrt_spec, sub_spec) + U |
| `C115_error` | FilterBankProps.v | R + C + P + S(Prim2SF_SF2Prim, Prim2SF_valid, SF2Prim_Prim2SF, abs_spec, add_spec, classify_spec, compare_spec, div_spec, eqb_spec, frshiftexp_spec, ldshiftexp_spec, leb_spec, ltb_spec, mul_spec, next_down_spec, next_up_spec, normfr_mantissa_spec, of_uint63_spec, opp_spec, sqrt_spec, sub_spec) + U |
| `C115_spectrogram` | FilterBankProps.v | R + C + P + S(Prim2SF_SF2Prim, Prim2SF_valid, SF2Prim_Prim2SF, abs_spec, add_spec, classify_spec, compare_spec, div_spec, eqb_spec, frshiftexp_spec, ldshiftexp_spec, leb_spec, ltb_spec, mul_spec, next_down_spec, next_up_spec, normfr_mantissa_spec, of_uint63_spec, opp_spec, sqrt_spec, sub_spec) + U |
| `C116_rounding` | DbAccProps.v | R + C + P + S(Prim2SF_SF2Prim, Prim2SF_valid, SF2Prim_Prim2SF, abs_spec, add_spec, classify_spec, compare_spec, div_spec, eqb_spec, frshiftexp_spec, ldshiftexp_spec, ltb_spec, mul_spec, next_down_spec, next_up_spec, normfr_mantissa_spec, of_uint63_spec, opp_spec, sqrt_spec, sub_spec) + U |
| `C116_levels` | DbAccProps.v | R + C + P + S(Prim2SF_SF2Prim, Prim2SF_valid, SF2Prim_Prim2SF, abs_spec, add_spec, classify_spec, compare_spec, div_spec, eqb_spec, frshiftexp_spec, ldshiftexp_spec, ltb_spec, mul_spec, next_down_spec, next_up_spec, normfr_mantissa_spec, of_uint63_spec, opp_spec, sqrt_spec, sub_spec) + U |
| `C116_spectrograms` | DbAccProps.v | R + C + P + S(Prim2SF_SF2Prim, Prim2SF_valid, SF2Prim_Prim2SF, abs_spec, add_spec, classify_spec, compare_spec, div_spec, eqb_spec, frshiftexp_spec, ldshiftexp_spec, leb_spec, ltb_spec, mul_spec, next_down_spec, next_up_spec, normfr_mantissa_spec, of_uint63_spec, opp_spec, sqrt_spec, sub_spec) + U |
| `C116_audible` | DbAccProps.v | R + C + P + S(Prim2SF_SF2Prim, Prim2SF_valid, SF2Prim_Prim2SF, abs_spec, add_spec, classify_spec, compare_spec, div_spec, eqb_spec, frshiftexp_spec, ldshiftexp_spec, ltb_spec, mul_spec, next_down_spec, next_up_spec, normfr_mantissa_spec, of_uint63_spec, opp_spec, sqrt_spec, sub_spec) + U |
| `C117_recordings` | FiniteResultProps.v | R + C + P + S(Prim2SF_SF2Prim, Prim2SF_valid, SF2Prim_Prim2SF, abs_spec, add_spec, classify_spec, compare_spec, div_spec, eqb_spec, frshiftexp_spec, ldshiftexp_spec, leb_spec, ltb_spec, mul_spec, next_down_spec, next_up_spec, normfr_mantissa_spec, of_uint63_spec, opp_spec, sqrt_spec, sub_spec) + U |
| `C117_without_overflow` | FiniteResultProps.v | R + C + P + S(Prim2SF_SF2Prim, Prim2SF_valid, SF2Prim_Prim2SF, abs_spec, add_spec, div_spec, eqb_spec, leb_spec, ltb_spec, mul_spec, sqrt_spec, sub_spec) |
| `C118_variance` | VarianceProps.v | R + C + P + S(Prim2SF_SF2Prim, Prim2SF_valid, SF2Prim_Prim2SF, abs_spec, add_spec, div_spec, eqb_spec, leb_spec, mul_spec, sub_spec) |
| `C118_deviations` | VarianceProps.v | R + C + P + S(Prim2SF_SF2Prim, Prim2SF_valid, SF2Prim_Prim2SF, abs_spec, add_spec, div_spec, eqb_spec, leb_spec, ltb_spec, mul_spec, sqrt_spec, sub_spec) |
| `C119_above_refuted` | MeanRangeProps.v | P |
| `C119_exact` | MeanRangeProps.v | R |
| `C119_near_partial` | MeanRangeProps.v | R + C + P + S(Prim2SF_SF2Prim, Prim2SF_valid, SF2Prim_Prim2SF, add_spec, div_spec) |

## 6. Wrong programs

`seeded/LOG.jsonl` has 257 entries.  Each records one edit of a model definition in a scratch copy, as a realistic bug
would change the program, the claim it breaks, the theorems whose proofs then failed, and the theorems tightened when none
did.
