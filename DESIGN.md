# Formal model of n-west/bliss in Rocq (Coq 8.16.1)

Sources modelled: `/repo/bland` (n-d array library) and `/repo/bliss` (drift search, scans,
flaggers, file types) at the pinned commit.  Nothing was built or run; the only tie between
model and code is the reading recorded in the comments: every definition cites file and lines.

## Conventions of the model

* Memory of an array is a function/list of cells addressed by integers; an access outside the
  allocation is a distinct outcome (`UB`), exceptions are distinct outcomes (`Throw kind`).
* Integers are `Z`.  Where the property is about wrap-around (`numel`, `uint8_t` RFI counters,
  `uint8_t` masks) the wrap is written out (`mod 256`, 32-bit truncation).
* Floating point: where only the *sequence* of operations matters (sums along tracks, reductions)
  the model is parametric in the number type and its operations (Section variables, which become
  universally quantified), so theorems hold for IEEE floats with their rounding, and for any other
  arithmetic.  Where rounding itself matters (slope of a drift track, `std::round`, signal-to-noise
  ratios, hit fields, file formats) floats are Flocq `BinarySingleNaN` values of precision 24 or 53
  with round to nearest even, so all results are bit-exact, except that NaN payloads are identified
  (FileModel/FileBits keep them).
* Loops are structural recursion over `seq`/fuel; fuel exhaustion is a distinct outcome which the
  theorems exclude.
* GPU kernels are modelled as sets of threads, each a small-step program over shared memory; a
  schedule is an arbitrary interleaving.
* Every area has `*Model.v` (definitions only, cited), `*Spec.v` or a spec section (independent
  specification), `*Proofs.v`, and the property theorems live in `Prop*.v` files, each followed by
  `Print Assumptions` and an `Example` with a concrete case that meets its hypotheses.
* A theorem whose name ends in `_refuted` shows that a natural expectation is false of the code,
  for all inputs of a family where possible, otherwise by a computed witness.  `properties.jsonl`
  states the behaviour that is proved, and says which expectation fails.

## Plan per property

| id | what is modelled | how it is proved |
|----|------------------|------------------|
| C01 | constructor strides, index map | induction on the shape: mixed-radix numeral bijection |
| C02 | `slice` on (shape,strides,offsets,data) | arithmetic on index maps; composition lemma; error branches |
| C03 | `slice` with negative bounds | `_refuted`: for all k, size the selected window has k+1 elements; positive statement of what is selected |
| C04 | `squeeze`, `unsqueeze`, `reshape` | equality of row-major element sequences |
| C05 | unrolled counter loop of the binary op | loop invariant: odometer = base-shape successor; refinement to pointwise spec |
| C06 | `expand_shapes_to_broadcast` | induction on reversed shapes vs. declarative compatibility |
| C07 | odometer loops for scalar op and fill | odometer enumerates all multi-indices, frame property |
| C08 | unary-op copy loop incl. its broadcast stride computation | positive for equal shapes; refuted for broadcast size-1 |
| C09 | reduction loops | nested odometers enumerate the fibre; refinement to fold |
| C10 | masked reductions | equality for identical layouts, refuted otherwise |
| C11 | `median` with a nth_element contract | sorted-permutation characterisation, uniqueness |
| C12, C13 | operator overloads and their dispatch | refuted with universally quantified characterisation |
| C14 | `arange`, `linspace` | rational arithmetic, characterisation of count, refuted for partial last step |
| C15 | `numel` accumulation with `int` initial value | exact product modulo 2^32 (signed); refuted beyond 2^31 |
| C16 | string parser | case analysis over all strings |
| C17 | state machine of deferred arrays | invariant over op histories; refuted for the default callable policy |
| C18, C19 | CPU kernel as a trace of guarded memory operations | invariants over t,k loops; UB outcome characterised |
| C20, C21, C25 | CUDA kernel per thread, interleavings; slice kernel | pointwise comparison, edge counterexample, commutation of disjoint writes |
| C22, C23 | `compute_drifts` with a bit-exact binary32 slope | arithmetic; Flocq error bounds |
| C24 | counters mod 256 | exact mod 256; refuted beyond 255; equality below |
| C26-C30 | BFS flood fills | loop invariants, fuel bound, reachability closure |
| C31 | local maxima scan | refuted for every plane when L>=1; characterisation for the CUDA kernel |
| C32, C33 | lock-free union-find over arbitrary interleavings | invariants over small-step executions, measure for termination |
| C34, C35 | hit construction and filters | list induction |
| C36, C37 | greedy event matching | multiset invariant; refutation of symmetry |
| C38, C39 | comparison operators and tuples | strict total order proof |
| C40-C47 | scan / target / cadence state | algebra, histories by induction; refutations |
| C48-C51 | flaggers and masks on bytes, deferred evaluation | finite byte sweep lifted with `forallb_forall`, histories, refutations |
| C52-C56 | record mapping, message framing, dat rows, coordinates | round trip, prefix property for every cut |
| C57, C58 | shape validation, CLI output naming | decision rules, refutations |
| C59 | DLPack export | index arithmetic: the exported cell is off by the sum of the offsets |
| C60 | array files | refinement of the row-major walk; truncated files reach `UB` |
| C61-C63 | strided slices, mixed-rank broadcasting, copies of other shapes | universal characterisations of the deviation |
| C64, C65 | scan-level flaggers, target and cadence slices | equality of heaps and reads for every flagger |
| C66 | h5 reads and axis order | window arithmetic over all file contents |
| C67 | hits of a scan | induction over channels, parametric in the channel search |
| C68 | spectral kurtosis | column-wise refinement, parametric arithmetic |
| C69, C70 | normalisation, equalisation, filter taps | refinement of the array programs; exact reals for the taps |
| C71-C74 | scan, event, target, cadence and dat files | round trips over messages; byte level for hits (C52) |
| C75, C76 | GPU reductions | block and grid as interleaved threads with barriers; strided loops partition the elements |
| C77 | GPU local maxima | per-thread characterisation, atomic counter invariant over interleavings |
| C78 | channel search | composition of noise estimate, integration, component search, hit construction, bit-exact |
| C79, C80 | GPU element-wise kernels, count | disjoint scatter lemma over all schedules, refinement to the CPU kernels |
| C81, C82 | FFT wrappers, power spectra, channel response | transforms quantified; DFT identities over exact complex numbers |
| C83 | event summaries | algebra over the reals and bit-exact floats |
| C84 | GPU protohit metadata | extends C32: collecting kernel over the merged table, any schedule |
| C85 | moves between devices | copies of consecutive cells, induction over paths of moves |
| C86 | ownership of buffers, borrowed arrays | invariant of reference counts over all programs |
| C87 | reading dat files | words of a line against a backtracking matcher, rounding bounds; two refutations |
| C88 | what coarse channels hand out | programs over channels that share variants, invariant against the last settings; two refutations |
| C89 | element types of arithmetic, comparisons, logical and | integers modulo ranges and bit-exact binary32 per element, lifted through C05/C07 to arrays; two refutations |
| C90 | reductions of integer arrays | folds in the element type (modulo, or undefined at overflow), bit-exact double square root and quotient, lifted through C09/C10 to arrays; two refutations |
| C91 | rounding errors of float statistics | bit-exact folds (Flocq); error analysis of recursive summation, quotient, scaled accumulation, cancellation (Cauchy inequality) and root over the reals, lifted through C09/C10 to arrays; two refutations. Assumes no contraction to fused multiply-add (no such flag in the build files) |
| C92 | rounding errors of drift planes | C18 and C25 instantiated with binary32, error analysis of C91's kind in single precision; comparison of the backends |
| C93 | what the CPU search detects | C78, C91 and C92 composed: exact averages against exact noise, with explicit margins |
| C94 | accuracy of hit fields | relative errors of double products and quotients (AccProofs), the slope's error of C23, C34 for the fields |
| C95 | what the CUDA search detects | plane kernel (C25, C92) and component kernels (C32) composed in GpuSearchModel; climbing to a winner in GpuSensProofs; margins as in C93 |
| C96 | variances of float arrays | var = square of stddev (VarModel); square32 rounding in VarProofs, composed with the bounds of C91 |
| C97 | what searches for local maxima detect | plane kernel (C25), maxima kernel (C77) and hits composed in LmSearchModel; peaks stated over exact ratios with the margins of C95; CPU from C31 with monotone ratios |
| C98 | layout of hit files, files of other programs | byte positions and IEEE decoding stated independently (PropWire); writer and reader of FileModel checked against them separately |
| C99 | arrays and numbers given from Python | position of an element by first element and strides; overload chosen by the contract of nanobind; results against integer and real arithmetic, independent of the kernels' dispatch |
| C100 | accuracy of spectral kurtosis and its flags | published formula over the reals beside the bit-exact model; errors counted as numbers of roundings (`near`), cancellation bounded against SK + K |
| C101 | default magnitude flags | mean and deviation of C91 put into the threshold as computed; Samuelson's bound for small channels; order of samples irrelevant (permutations) |
| C102 | accuracy of GPU sums and means | error of one Kahan step over the reals, as an invariant of each thread's sum and compensation; errors per level of the tree; relation lifted to all interleavings by GaccRel; at most 1024 outputs, since beyond them compensations leak (C76) |
| C103 | accuracy of GPU variances and deviations | a contracted or separate square less compensation is a Kahan step on a real near the square; sums of squares and sums carried together through threads and tree; the difference of means of squares and squared mean over the reals, maximum with zero, root |
| C104 | CUDA search with noise estimated on the GPU | C103 (one output, axes []) composed with C95; permutation of the unflagged samples; margins over the exact mean and deviation |
| C105 | accuracy of GPU sums and means, any number of outputs | leak relation (GleakRel): an invariant on the compensation a thread carries from one output to its next; a carried compensation is equivalent to a changed first element, so that the thread invariant of C102 applies to a virtual list; at most 5u times a thread's share of the largest magnitude is carried |
| C106 | spectral kurtosis on a GPU | finished runs of the sum kernel as a relation (GkurtModel), C105 for both sums, the relative-error calculus of C100 from any two close sums (GkurtReal); refutation by computing the stored totals, which do not depend on the schedule |
| C107 | sigma clipping on a GPU | statistics as finished runs of the masked kernel, the loop as an inductive relation (GclipModel); invariant: after each round the statistics are C103's of the samples left; error calculus for the two bounds; refutations for all inputs |
| C108 | what a CUDA search for local maxima detects with its noise estimated on the GPU | composition of C103's estimate (C104's `noise_from_gpu`) with C97; order of the computed ratios against the exact strengths |
| C109 | default magnitude flags on a GPU | composition of C102's mean and C103's deviation, as finished runs of their kernels (GmagModel), with C48; C107's error calculus at ten deviations; C101's extremal argument |
| C110 | equalizing by a generated response file | C82's program in single precision (EqModel): monotone rounding keeps sums, maximum and quotients in range without a bound on rounding errors; C60's files and C69's division composed |
| C111 | reads past a shape that return arbitrary words | LaxModel: the words behind a shape as a universally quantified function; zero strides make them irrelevant for one-element operands (C08's loop lemma); by induction on the unrolled loop a wrong word makes the response run off its end; C69 and C110 reused |
| C112 | bliss_find_hits on the CPU reports nothing | FhModel: the transforms the program registers, composed with ScanModel's reads and FileModel's output loop; steps before clipping keep the device, clipping never returns on the CPU (C51), later steps never run; C111 for the steps before |
| C113 | sigma clipping of channels on a GPU, words behind shapes arbitrary | GlaxModel: GclipModel with LaxModel's operations; the unused broadcast shapes leave nothing in the kernel, whose strides equal those of an operand of as many axes (C79); loop induction as in C107 over flat indices; C107's bounds for one round |
| C114 | flag_hot_pixels returns uninitialised bytes | RfiModel: C91's statistics do not fail, the new array's contents are a universally quantified function; injectivity of cells (C01) gives memory for any flags |
| C115 | normalize on a GPU, words behind shapes arbitrary | GnormModel: finished runs of the maximum kernel (C75) and of the division kernel (C113's theorem on one-element operands); PropEq's facts about quotients |
| C116 | normalized samples do not depend on gain, device or schedule | relation of two runs from C111 and C115: quotients of numbers with a common factor round to the same float, with the same sign; a rounded factor of 3 as counterexample |
| C117 | scaling, then sigma clipping on a GPU, never fails; dead channels are not flagged | GprepModel: C115 and C113 composed; scaled samples lie in [0, 1], so their squares are in reach of C113; NaN is never outside the bounds |

## Trusted base

* The kernel of Coq 8.16.1 (with `vm_compute`; no `native_compute`), and the checker `coqchk`.
* The axioms listed by `Print Assumptions` for each theorem.  `ASSUMPTIONS.md` gives the list per
  theorem (regenerate it with `tools/axioms.py`).  Only these four axioms of the standard library
  occur, all through the real numbers:
  `ClassicalDedekindReals.sig_forall_dec`, `ClassicalDedekindReals.sig_not_dec`,
  `FunctionalExtensionality.functional_extensionality_dep`, `Classical_Prop.classic`.
  About 60 % of the theorems are closed under the global context.
* Libraries used: the standard library and Flocq (which add no axioms of their own).  `coqchk`
  additionally lists the sealed constants of `Coq.Reals.Rdefinitions` and `Coq.ssr.ssrunder`, which
  are module-sealed definitions, not axioms.
* No axiom, parameter, functor or module type is declared in `theories/`, and nothing is admitted.
* The reading of the code recorded in the comments of the `*Model.v` files: there is no extraction
  and no translation tool between `/repo` and the model.
* For C99, the documented behaviour of nanobind: overloads are tried in the order of their
  definition, first without and then with implicit conversions (comment of `PyModel.v`).

## What is modelled

| source | model |
|--------|-------|
| `bland`: `ndarray.cpp`, `ndarray_slice.cpp`, `bland_tensor_internals.cpp`, `shape_helpers.cpp`, `ops.cpp`, `ops/cpu/*` (element-wise, assignment, comparison) | NdModel, FlagModel (comparisons on masks), TypeModel (element types, dispatch) |
| `bland/python/pybland.hpp`: conversion of arrays, scalar overloads, slice (CPU) | PyModel |
| `bliss/flaggers/spectral_kurtosis.cpp`, `bliss/estimators/spectral_kurtosis.cpp` on coarse channels, in single precision | KurtModel (FlagModel at binary32) |
| the same on a GPU: `bland::sum` as finished runs of the reduction kernel, the element-wise steps as on the CPU (C79) | GkurtModel |
| `flag_sigmaclip` on a GPU: `masked_mean_stddev` as finished runs of its kernel, which reads the float32 zeros of the first round as bytes; the element-wise steps as on the CPU (C79) | GclipModel |
| `flag_magnitude` without a threshold on a GPU: `mean` and `stddev` as finished runs of their kernels; the threshold on the host and the element-wise steps as on the CPU (C79) | GmagModel |
| `bliss_generate_channelizer_response.cpp` (options, response, file) and `equalize_passband_filter` by path, in IEEE single precision; transform, filter design and storage of a float by contract; no fused multiply-add | EqModel |
| `compute_broadcast_shape` with reads past the end returning arbitrary words, the CPU element-wise operation, `normalize` and `equalize_passband_filter` on top of it; everywhere else such a read is undefined behaviour | LaxModel |
| `bliss_find_hits.cpp` 110-163: the registered transforms (normalization and sigma clipping in full on the CPU, the other steps and the GPU arbitrary) and the output loop; parsing of arguments (clipp), opening of inputs and slicing are not included (C40-C43 treat them) | FhModel |
| `flag_sigmaclip` of channels on a GPU and the GPU binary kernel when reads past a shape return arbitrary words; otherwise as in GclipModel and GelModel | GlaxModel |
| `flag_hot_pixels` of float arrays on the CPU | RfiModel |
| `normalize` of dense float data on a GPU, as two launches | GnormModel |
| `normalize` then `flag_sigmaclip` as registered by `bliss_find_hits.cpp`, on a GPU | GprepModel |
| `bliss/flaggers/magnitude.cpp` 28-34, the default threshold, in single precision | MagModel (FlagModel and FsumModel) |
| `bland`: `statistical.cpp`, `ops/cpu/statistical_cpu.cpp`, `creators.cpp`, `ndarray_deferred.*`, `config` strings | RedModel, TRedModel (integer element types), FsumModel (bit-exact float accumulation), VarModel |
| `bland`: `ops/cuda/statistical_cuda.cu`, `count.cuh` | GredModel, GredKernels, CountModel; GvarModel (single precision, with optional contraction) |
| `bland`: `ops/cuda/elementwise_*`, `arithmetic*`, `comparison*`, `ops_cuda.cu` | GelModel |
| `bland`: `frequency*.cpp/.cu` | FreqModel |
| `bland`: `to`, device dispatch, handles and ownership, imports | DevModel |
| `bliss/core`: scan, target, cadence, coarse channel, hit, event, noise power, drift plane | ScanModel, HitModel, PipeModel, ChanModel |
| `bliss/drift_search`: integration (cpu, bland, cuda), components (cpu, cuda), local maxima (cpu, cuda), hit search, filters, event search | DriftModel, DriftFloat, CcModel, CcCudaModel, CcCollect, LmCudaModel, HitModel, PipeModel, GpuSearchModel, LmSearchModel |
| `bliss/estimators`, `bliss/flaggers`, `bliss/preprocess` | FlagModel, FreqModel (channel response) |
| `bliss/file_types`: h5 reader, capnp hits, scans, events, targets, dat writer; `bliss_find_hits.cpp`, `bliss_hits_to_dat.cpp` | ScanModel, FileModel, DatModel, DatText, DatRead |

Assumptions made inside these models (each is repeated where it is used):

* External code is quantified over or given by its contract: FFTW and cuFFT, HDF5 reads, fmt number
  formatting, `std::nth_element`, `std::sort`, the allocator (its slack is a parameter), Cap'n Proto
  (word layout of the messages, segment tables and the traversal limit are modelled; far pointers
  and landing pads are not, and the size limit ignores them).
* GPU: loads and stores of the shared arrays are sequentially consistent and word-atomic; atomics
  are single steps; `__syncthreads` separates phases; no fused multiply-add contraction; several
  `__shared__` arrays are merged into one address space; grids are launched as written.  Output and
  input buffers of element-wise kernels are distinct (C79).  Dynamic shared memory suffices in the
  count kernel, which holds up to 23 dimensions (C80).  Racing stores of identical values are
  atomic (C81).
* Lengths of `firdes` taps and of transforms are those of the code, and taps per channel do not exceed the
  channel width (C82).
* `std::stod` reads decimals with six digits after the point to the nearest double, and reads back what `fmt` printed
  with its shortest representation; `^` in a regular expression means the start of the line (C87).
* Buffers that the theorems do not mention are not aliased by other threads of the host program.

## What is not modelled

* Python bindings (`pybland.hpp`, `py*.hpp`) beyond the imports and exports of C59 and C86, the
  pickled hit tuples of C39, the array and scalar overloads of C99, and the plotting scripts.
* `dispatcher.hpp` as a template: its effect (operand types, return types, unsupported combinations)
  is modelled at each use.
* `bliss_debug_demo.cpp` (it reads one channel and stops) and the empty `event_search.cpp` program;
  `rfi/rfi.cpp` on a GPU.
* Console output, logging, timing, thread counts of OpenMP-free host code, exceptions from memory
  exhaustion other than those of C85, and the bitshuffle plugin of HDF5.
