{
 "C01": {
  "note": "Full statement: row-major cells are exactly 0..n-1."
 },
 "C02": {
  "note": "Error branches, window, composition, and safety of any number of slices of a new array. end<start raises runtime_error (not out_of_range)."
 },
 "C03": {
  "note": "Refuted for every array, size and k with the exact window that is selected instead."
 },
 "C04": {
  "note": "unsqueeze/squeeze identity and elements proved; squeeze of an axis with a slice offset and general reshape are refuted by witnesses; reshape from 1-D and flattening proved."
 },
 "C05": {
  "note": "Kernel and whole operations for all views, shapes below 2^31 elements."
 },
 "C06": {
  "note": "Full statement."
 },
 "C07": {
  "note": "Full statement for arrays below 2^31 elements."
 },
 "C08": {
  "note": "Full statement for arrays below 2^31 elements; mismatching shapes are C63."
 },
 "C09": {
  "note": "Full statement for sum, mean, stddev, max, count, standardized moment; negative axes refuted (they read outside the shape)."
 },
 "C10": {
  "note": "Proved when mask and data use the same cells; refuted for other layouts, with the exact lookup the code performs."
 },
 "C100": {
  "note": "CPU; powers as stated (negative samples and larger magnitudes are not covered by the error bound). No fused multiply-add. The estimates on CUDA differ in the order of summation and are not covered (see C75, C76).",
  "status": "proved"
 },
 "C101": {
  "note": "Bit-exact binary32/binary64 model of the default threshold on CPU float arrays (MagModel), against exact real statistics. No fused multiply-add. Examples: a spike among 128 samples, and one among 6."
 },
 "C102": {
  "note": "IEEE single precision as written; contraction to fused multiply-adds does not concern sums and means. Arrays with more than 1024 outputs are excluded because their compensations leak (C76)."
 },
 "C103": {
  "note": "Contraction is modelled at the two places where a product meets a difference; square roots are correctly rounded (CUDA's default)."
 },
 "C104": {
  "note": "Copies between devices are C85's; the check that not everything is flagged is C78's and C80's. Whether the table has room is stated over the samples."
 },
 "C105": {
  "note": "Refuted form included: an output's error is not bounded by its own elements (C105_own_elements_refuted). Sums and means only; variances beyond 1024 outputs are not bounded."
 },
 "C106": {
  "note": "Every finished run of both sums; element-wise kernels give the CPU's elements (C79). The published estimate and the margin are stated in reals, independent of the model."
 },
 "C107": {
  "note": "Channels undefined for all inputs (refutation); one-axis arrays for all inputs, any number of rounds; each round's bounds against exact statistics. The margins are C103's and are not shown to be the best possible."
 },
 "C108": {
  "note": "Composition of the masked statistics kernel (C103) with the search for local maxima (C97), from samples to hits, for all schedules of both; the case includes a complete run that finds the line."
 },
 "C109": {
  "note": "The host's mean + 10*stddev is rounded after each operation (no contraction of host code). Element-wise steps on the GPU are taken to give what the CPU's give, C79."
 },
 "C11": {
  "note": "Full statement, for every implementation of nth_element meeting its standard contract and every linear order."
 },
 "C110": {
  "note": "Range of the response, division by the file written, and wrong sizes are proved for all inputs within the stated ranges. The transform's bins must be finite and at most 2^40 in magnitude; overflow beyond that, odd widths and spans with an inexact centre are outside (C81, C82). The device option is parsed and not used by the program."
 },
 "C111": {
  "note": "Proved for all contents of memory behind the shapes, all sizes with fewer than 2^31 elements, in IEEE single precision for normalize and over any arithmetic for equalization; C111_equalize also shows where the call still reads outside the response. The strict reading of the language is C69."
 },
 "C112": {
  "note": "Proved for every behaviour of the other steps; the two theorems say that no report is made and, for readable nonnegative samples, that the exception handler is what ends the program. The strict reading of normalize is C69, sigma clipping on a GPU C107."
 },
 "C113": {
  "note": "Proved for all contents of memory behind the shapes, all schedules of the statistics kernels and of the comparison kernel, any number of rounds. The rounds compose the CPU meaning of the element-wise steps, which the kernel theorem shows to be what the GPU gives. The strict reading of the language is C107."
 },
 "C114": {
  "note": "Proved for all finite samples up to 2^120 and all contents of memory; refutation of the header's description. On a GPU the function is not modelled."
 },
 "C115": {
  "note": "Proved for all finite nonnegative samples and all schedules of both kernels; dense data only. The CPU counterpart is C111, the strict reading of the language C69."
 },
 "C116": {
  "note": "Relates any two runs, on either device; for exact positive factors. Words behind shapes arbitrary (C111, C115). The rounded factor is refuted by computation in the model."
 },
 "C117": {
  "note": "Composition of C115 and C113, proved without C113's assumption on the size of the samples. Kurtosis and roll-off flags enter as an arbitrary mask; with a response file see C111."
 },
 "C12": {
  "note": "False of the code; the computed values are characterised for every array and scalar."
 },
 "C13": {
  "note": "False of the code; scalar cmp array equals array cmp scalar."
 },
 "C14": {
  "note": "arange on integers: exact values and count; complete exactly when the step divides the interval, refuted otherwise. linspace over rationals and 32-bit integers; descending integer ranges refuted."
 },
 "C15": {
  "note": "numel is the product truncated to int32; false from 2^31 elements on (refuted)."
 },
 "C16": {
  "note": "Every string characterised, the text behind the colon by C16_number and C16_no_number."
 },
 "C17": {
  "note": "Invariant over all histories; 'executes only once by default' refuted for every number of reads."
 },
 "C18": {
  "note": "All spectra, sizes and drift lists, and end to end from the search options (bit-exact float slope and rounding); a sliced spectrum is read from the parent's start (universal refutation of the general-view reading)."
 },
 "C19": {
  "note": "Row containment for every access; safe exactly when |span|+desmear-1 <= N for every drift, otherwise undefined behaviour (both directions proved); a single time step is always undefined."
 },
 "C20": {
  "note": "Counters always, and values for whole tracks when division is exact or desmear = 1; offsets within one channel of each other. False in general: band edges, binary32 desmearing, and lroundf(float) against round(double) (T=7, span=5) are refuted."
 },
 "C21": {
  "note": "Full statement for all tracks within the band (fewer than 2^31 channels)."
 },
 "C22": {
  "note": "Full statement for |span| < 2^22; step 0, reversed and sub-step ranges refuted."
 },
 "C23": {
  "note": "Full statement, bit-exact binary32/binary64, for both the CPU and the CUDA offset."
 },
 "C24": {
  "note": "Exact modulo 256, exact when T*desmear <= 255; wrap-around refuted universally."
 },
 "C25": {
  "note": "All interleavings, all launch geometries, no undefined access, termination."
 },
 "C26": {
  "note": "Any element type; the binary32 instance covers every finite threshold >= 0. For negative thresholds the claim is false (C26_negative_threshold_refuted): a seed may yield an empty component."
 },
 "C27": {
  "note": "Each component is the reachable set from its seed; the neighbourhood offsets are characterised and shown not to be symmetric."
 },
 "C28": {
  "note": "Peak, snr, power, noise, width (extent minus one) and centre; binary32 instance for thresholds >= 2^-125."
 },
 "C29": {
  "note": "False of the code: the counters are those of the scan position that started the component (universal theorem) and differ from the peak's in a concrete run."
 },
 "C30": {
  "note": "Partition, connectedness, and maximality for symmetric neighbourhoods; any strided mask view."
 },
 "C31": {
  "note": "False of the code for distance >= 1: a bin is compared with itself by a strict comparison, so nothing is ever reported (universal). For distance 0 reports and coverage are characterised."
 },
 "C32": {
  "note": "Every interleaving and thread count, table large enough, distance >= 2, ordered SNRs (binary32 without NaN proved to be an instance). Touching is what the kernel looks at: bins of the first L channels do not look. Refuted outside those hypotheses: table overflow, distance 0, distance 1, peaks in the first channels."
 },
 "C33": {
  "note": "Any labels whose chains end, every interleaving and thread count; in a search the chain is the climb through strongest neighbours. A cycle of labels loops forever."
 },
 "C34": {
  "note": "End to end from the CPU component search (binary32, threshold from 2^-125): one hit per component, in order, with the stated fields. Refuted: start_freq_MHz is the frequency of the middle of the extent, not of start_freq_index; time_span_steps is never written."
 },
 "C35": {
  "note": "Exact selection (|drift| below the double nearest 1e-6 when asked), counts and all other fields kept, idempotent. Refuted: a kept hit need not equal the original (lookup inserts zero counts)."
 },
 "C36": {
  "note": "Any number of scans and hits and any behaviour of the distance cache that answers the distance of an equivalent key. Refuted: an empty cadence is undefined behaviour; the cache's comparison is not transitive."
 },
 "C37": {
  "note": "False of the code: the second hit's duration is used for both. Symmetric in exact arithmetic when durations or drifts agree; refuted in doubles with one order below and the other above the match limit."
 },
 "C38": {
  "note": "Strict total order modulo == on NaN-free hits, -0 and infinities included; refuted with NaN; coarse channel number is not compared."
 },
 "C39": {
  "note": "Fields kept and lost characterised for all hits; repickling is stable. Refuted: doubles are narrowed to float; step counts near 2^63 are undefined."
 },
 "C40": {
  "note": "Channels, windows and metadata of composed slices proved equal for any arithmetic; frequencies equal over the reals. Refuted: one-ulp differences in double precision; slicing a scan built in memory is undefined."
 },
 "C41": {
  "note": "Windows proved for every history over a file. Refuted: index equal to the channel count is accepted; missing nbits/nifs attributes make reads undefined."
 },
 "C42": {
  "note": "Every history of reads, peaks, slices, copies, transforms and device changes. Refuted: scans split before a read each make their own channel; data() rereads the file."
 },
 "C43": {
  "note": "Exact arithmetic: every frequency of every channel, either axis direction. Refuted in double precision by a realistic band."
 },
 "C44": {
  "note": "Product equal to the channel count whenever defined, and exactly when it is a division by zero."
 },
 "C45": {
  "note": "False of the code: the check is inverted; universal refutations and the exact accepted set over the reals."
 },
 "C46": {
  "note": "All lists of names."
 },
 "C47": {
  "note": "Targets, cadences and channels proved; refuted for scans, which keep the refused device."
 },
 "C48": {
  "note": "Flaggers add: exact effect proved for magnitude and spectral kurtosis, including the second application and sixteen of them."
 },
 "C49": {
  "note": "Exact mask after any number of reads, with the zero-width and full-band cases."
 },
 "C50": {
  "note": "Proved for masked estimates with data and mask stored densely, as coarse channels store them; MAD never yields a value."
 },
 "C51": {
  "note": "Every call characterised."
 },
 "C52": {
  "note": "Proved down to the bytes of the file for every hit list with widths up to 2^24, every NaN payload and every behaviour of the library on foreign messages; the stronger reading (every field survives) is refuted."
 },
 "C53": {
  "note": "Proved for every cut, at byte granularity."
 },
 "C54": {
  "note": "The condition under which write and read agree is characterised for all strings; the claim in the title is refuted."
 },
 "C55": {
  "note": "Text model of fmt fixed and integer formatting with correct rounding; rows read back by an independent reader. Headings refuted. The library's own dat reader is C87."
 },
 "C56": {
  "note": "Bit-exact doubles. Refuted outside the stated ranges, and for printed seconds below 60.",
  "status": "proved"
 },
 "C57": {
  "note": "Exact acceptance condition for all files. Refuted: extra axes of size one are refused and others accepted, and then unreadable."
 },
 "C58": {
  "note": "The claim is refuted and the actual effect on the file system is characterised for all inputs."
 },
 "C59": {
  "note": "True for whole arrays, false for slices: the exported cell is off by the sum of offsets, for every view and index."
 },
 "C60": {
  "note": "Write and whole-element read proved; truncated files are undefined behaviour for every such file (refuted part)."
 },
 "C61": {
  "note": "Floor count for every non-dividing stride; dividing strides are in C02."
 },
 "C62": {
  "note": "Two universal refutations; equal ranks and the accepted combinations are in C05 and C06."
 },
 "C63": {
  "note": "No copy between same-rank views ever throws."
 },
 "C64": {
  "note": "The scan-level flaggers have no effect, for every flagger."
 },
 "C65": {
  "note": "All targets."
 },
 "C66": {
  "note": "All sizes, contents and windows."
 },
 "C67": {
  "note": "All scans and per-channel outcomes."
 },
 "C68": {
  "note": "Formula for any arithmetic in the model (sk_is), stated over the reals; laws over the reals; dead column in binary64."
 },
 "C69": {
  "note": "normalize refuted for all shapes; equalize characterised for all shapes."
 },
 "C70": {
  "note": "Exact arithmetic only; float32 rounding of the taps not modelled."
 },
 "C71": {
  "note": "Message contents are modelled; the byte encoding of scan messages is a parameter (only the segment table check and the size limit are modelled)."
 },
 "C72": {
  "note": "For every encoding that satisfies codec; a concrete one shows that codec is satisfiable."
 },
 "C73": {
  "note": "The hits of each scan are covered by C71."
 },
 "C74": {
  "note": "Uses the hit-file round trip of C52.",
  "status": "proved"
 },
 "C75": {
  "note": "GPU small-step model (GpuModel, GredModel): threads of a block interleave arbitrarily between barriers; loads and stores are sequentially consistent; no FMA contraction.",
  "status": "proved"
 },
 "C76": {
  "note": "Negative characterisations of the GPU kernels; the float32 witness uses bit-exact arithmetic.",
  "status": "proved"
 },
 "C77": {
  "note": "Positive statement proved for all interleavings; the overflow of the result buffer is proved as a refutation of the expectation that all peaks are reported."
 },
 "C78": {
  "note": "Bit-exact float composition of noise estimate, drift integration, component search and hits; noise in exact arithmetic; NaN noise refutes completeness on flat channels."
 },
 "C79": {
  "note": "Exact agreement with the CPU kernels for every schedule; refuted for views spanning 2^32 cells, short copy sources and scalar-left comparisons. Out and inputs are distinct buffers."
 },
 "C80": {
  "note": "Offsets of the view are ignored by the kernel (C80_sliced_count_refuted). Dynamic shared memory is taken to suffice, which holds up to 23 dimensions."
 },
 "C81": {
  "note": "The external transforms (FFTW, cuFFT) are quantified over; the exact-arithmetic statements assume they compute the DFT. The kernel's threads all write the same values: taken as atomic stores. fft_cuda for one sample (negative range) is taken as undefined."
 },
 "C82": {
  "note": "firdes (C70) and the transform are quantified over; their lengths are assumed. Taps per channel at most the channel width. One float of room after the spectrum is a hypothesis (see C81)."
 },
 "C83": {
  "note": "Added after an edit of the averages in event_search survived the theorems of C36."
 },
 "C84": {
  "note": "Collecting kernel of the GPU search as threads of a small-step machine over the table left by the kernels of C32; the width differs from the CPU search (refuted) and the kernel exports filter_rolloff counts of 0 always."
 },
 "C85": {
  "note": "to() as copies of consecutive cells between buffers, uninitialised cells explicit; allocation success and the set of valid devices are parameters. Sliced sources, GPU-to-GPU, pinned sources and large arrays are refuted."
 },
 "C86": {
  "note": "Small machine of tensor handles (data pointer, ownership, shape pointers) with imports and releases; theorems quantify over all programs. Assignment of borrowed arrays and byte offsets are refuted."
 },
 "C87": {
  "note": "C87_header is the positive part; C87_rows_ignored_refuted and C87_channel_width_refuted show what is lost. stod is a parameter with a contract met by sample_stod."
 },
 "C88": {
  "note": "Moving arrays and running callables are parameters with a contract (library_ok) met by the model of bland::to for whole arrays on the CPU and one GPU (C88_cpu_and_gpu). Elements written in place through an array handed out, and deferred arrays with the memoize policy set as data, are not modelled."
 },
 "C89": {
  "note": "CPU kernels; conversions of out-of-range integers to signed types are taken as modular. Array-array division and addition broadcast as in C05, the other operations take the shape of the left operand. An infinite operand beside a float is covered only for comparisons."
 },
 "C90": {
  "note": "int32, uint8 and uint32; int64 arrays are not covered. Shapes without empty dimensions and of less than 2^31 elements. That an exception for a fully masked result comes out is proved for the mean of unsigned arrays; elsewhere another result may be undefined first. The mean's undefinedness for single elements stems from converting 1.0/0 to an integer that is not used afterwards."
 },
 "C91": {
  "note": "CPU float arrays; no contraction to FMA assumed. C91_mean, C91_masked_mean, C91_stddev, C91_mean_stddev, C91_masked_stddev, C91_masked_mean_stddev give the bounds for every result element; C91_stddev_error turns them into bounds on the standard deviation; C91_masked_stddev_refuted and C91_sum_refuted refute the stronger claims."
 },
 "C92": {
  "note": "binary32 with round to nearest, no contraction. C92_cpu, C92_search (CPU), C92_cuda (every schedule), C92_backends_close, C92_relative. That the backends are not bit-identical with desmearing is C20_float_desmear_refuted."
 },
 "C93": {
  "note": "Combines C78 (the CPU search), C91 (statistics) and C92 (planes) in binary32/binary64 with round to nearest, no contraction. C93_find_hits is the whole chain; C93_detects, C93_hits_are_real, C93_snr_accuracy, C93_strong_line, C93_quiet_channel, C93_clipped_line are about a given floor and noise estimate. Lines that leave the band: C93_clipped_line with C93_edge_case."
 },
 "C94": {
  "note": "Binary32/binary64 with round to nearest, no contraction. C94_drift_rate, C94_drift_order, C94_frequency, C94_frequency_order, C94_last_spectrum are about the formulas, C94_hit_fields about the hits of a search (through C34 and C78). Hits of the CUDA search are built by the same code."
 },
 "C95": {
  "note": "Floor, noise power and room in the protohit table are given (C32_table_overflow_refuted shows what happens without room). C95_completes, C95_reports_are_real, C95_detects, C95_quiet_border, C95_strong_line, C95_quiet_channel, C95_snr_accuracy; C95_few_drifts_refuted and C95_backends_differ_refuted are the ways it differs from C93. Building protohits and hits from the reported bins is C34/C39. Uses Classical_Prop.classic (standard library)."
 },
 "C96": {
  "note": "Float (single precision) arrays on the CPU. stddev and masked_stddev are modelled bit-exactly (C91); square is one rounded multiplication. C96_out_refuted: the passed output holds the standard deviations. C96_masked_nan_refuted is a witness of NaN."
 },
 "C97": {
  "note": "Same conditions as C95, plus D*N + 512 <= 2^31 and L^2 < 2^31 for the 32-bit counters of the kernel. C97_crowded_refuted and C97_flat_channel_refuted characterise the overflow; C97_backends_differ_refuted is a witness."
 },
 "C98": {
  "note": "Wire format of messages with one segment and near pointers, as the Cap'n Proto library lays out the schema (trusted, see DESIGN); other messages are covered by the arbitrary function of the reader. C98_width_refuted: undefined behaviour for a width that is not an int64."
 },
 "C99": {
  "note": "nanobind's choice of overload is a stated contract (DESIGN, PyModel): definition order, first without then with implicit conversions. C99_compare_negative_refuted is a characterisation, C99_numbers_refuted are witnesses. Python bools and numpy scalars, other bindings and devices are not covered.",
  "status": "proved"
 }
}