{"id": "C01", "title": "Every element of a new array has its own cell inside the buffer", "statement": "For an array created with any list of non-negative dimensions, the cell used for a multi-index that is within the shape lies inside the allocation of product-of-dimensions elements, two different in-range multi-indices use different cells, and every cell is used.", "quantifier": "all shapes (any rank, any sizes) and all in-range multi-indices", "why_tests_cant": "A test fixes a handful of shapes; injectivity and in-bounds must hold for every rank and size.", "anchors": ["bland/bland/ndarray.cpp: ndarray(dims,dtype,device), strides, offsets, scalarize(nd_index)"]}
{"id": "C02", "title": "A slice is an exact window onto its parent", "statement": "For non-negative bounds and a positive stride, slice(a, {dim,start,end,stride}) succeeds exactly when start does not exceed the end clipped to the size. It then has (clipped end - start) / stride entries along dim (rounded down), its element i along dim is the parent's element start+i*stride and all other coordinates are unchanged, and every such element is an in-range parent element. Slicing a slice is the slice of the composed bounds, and any number of slices of a new array stays inside its buffer and shares no cell between two positions. A start past the size raises out_of_range, an end before the start raises runtime_error.", "quantifier": "all arrays/views, all dims, starts, ends, positive strides, any nesting depth and number of slice specs", "why_tests_cant": "Views compose; the set of (start,end,stride,nesting) is unbounded.", "anchors": ["bland/bland/ops/ops.cpp: slice (one spec, many specs)", "bland/bland/include/bland/ops/ops.hpp: slice_spec"]}
{"id": "C03", "title": "Negative slice bounds", "statement": "slice(a,{dim,-k,size}) selects the last k+1 entries of that dimension, from position size-k-1 on, for every array, size and 1 <= k <= size (so the usual meaning of a negative index, the last k entries, is false); for k = size the selection begins before the first entry.", "quantifier": "all sizes and all 1<=k<=size", "why_tests_cant": "Only a universally quantified statement shows the off-by-one happens for every size and k rather than for a special case.", "anchors": ["bland/bland/ops/ops.cpp: slice lines 164-195", "bliss/flaggers/filter_rolloff.cpp: flag_filter_rolloff"]}
{"id": "C04", "title": "Which squeeze, unsqueeze and reshape calls keep the elements", "statement": "unsqueeze followed by squeeze of the same axis is the identity. unsqueeze keeps the row-major sequence of elements, and so does squeeze of an axis without a slice offset. Reshaping a contiguous one-dimensional view to any other rank, or a new array to one dimension, gives the requested shape with the same row-major sequence. Squeezing a sliced axis drops its offset and reads other elements, and other reshapes between ranks above one may repeat and drop elements, so 'squeeze and reshape never change the elements' is false.", "quantifier": "all views, all axes, all requested shapes", "why_tests_cant": "Shapes, strides and axes range over unbounded sets.", "anchors": ["bland/bland/ndarray.cpp: reshape, squeeze, unsqueeze"]}
{"id": "C05", "title": "Element-wise binary operations compute exactly the broadcast result", "statement": "For inputs of broadcast-compatible shapes of equal rank, or of lower rank with a first axis different from 1 and from the leading output axes (any strides and view offsets; for subtraction, multiplication and comparisons the right operand must stretch to the left operand's shape), after an element-wise binary operation every output element equals op(a element, b element) at the broadcast-matched indices, no output element is skipped or written twice with a different value, and no cell outside the output view changes, including row lengths around the eight-fold unrolling boundary.", "quantifier": "all ranks, shapes, strides, offsets, operand values and operations", "why_tests_cant": "Unrolled loop tails and broadcasting must be right for every row length and rank.", "anchors": ["bland/bland/ops/cpu/elementwise_binary_op.hpp: elementwise_binary_op_impl_wrapper", "bland/bland/internal/include/internal/shape_helpers.cpp"]}
{"id": "C06", "title": "Incompatible shapes are rejected, compatible shapes broadcast to the numpy shape", "statement": "expand_shapes_to_broadcast returns, for compatible shapes, the right-aligned element-wise maximum and raises invalid_argument for every incompatible pair; it is commutative and idempotent.", "quantifier": "all pairs of shapes", "why_tests_cant": "Pairs of shapes of arbitrary rank.", "anchors": ["bland/bland/internal/include/internal/shape_helpers.cpp: expand_shapes_to_broadcast, compute_broadcast_shape, compute_broadcast_strides"]}
{"id": "C07", "title": "Scalar operations and fill touch each element of the view exactly once", "statement": "Array-with-scalar operations produce op(element, scalar) for every element; fill sets every element of the view and leaves every cell of the parent buffer that is not in the view untouched.", "quantifier": "all shapes, strides, view offsets, scalars", "why_tests_cant": "The odometer index increments must enumerate every multi-index for every shape.", "anchors": ["bland/bland/ops/cpu/elementwise_scalar_op.hpp", "bland/bland/ops/cpu/assignment_op.hpp: assignment_op_impl_wrapper"]}
{"id": "C08", "title": "Copying into a slice stores the source elements", "statement": "Assigning an array to a slice of the same shape makes each slice element equal to the corresponding source element and changes nothing else.", "quantifier": "all shapes and source/destination layouts", "why_tests_cant": "Layout combinations are unbounded; size-1 dimensions that are broadcast need the stride-zero rule.", "anchors": ["bland/bland/ndarray_slice.cpp: operator=", "bland/bland/ops/cpu/elementwise_unary_op.hpp"]}
{"id": "C09", "title": "Reductions see every element of the reduced axes exactly once", "statement": "sum, mean, max and count over any set of axes give, for each output position, the fold over exactly the input elements that agree with it on the remaining axes, each once; so do stddev and the standardized moment. Reducing all axes gives a one-element result. This holds for lists of distinct non-negative axes; a negative axis reads outside the shape and is undefined behaviour.", "quantifier": "all shapes, strides, offsets and reduced-axis lists", "why_tests_cant": "Every combination of rank, axis set and layout.", "anchors": ["bland/bland/ops/cpu/statistical_cpu.cpp: mean, sum, max, count", "bland/bland/ops/statistical.cpp"]}
{"id": "C10", "title": "Masked statistics use only the unmasked elements", "statement": "When data and mask have the same shape and layout, masked_mean and masked_stddev depend only on the elements whose mask element at the same multi-index is zero, and raise an error when a result has none. Different shapes raise runtime_error. For the same shape in another layout the code looks the mask up at the data's cell and not at the mask's own, so 'only the elements with a zero mask element count' is false there.", "quantifier": "all arrays and masks of the same shape, in every layout (slices included)", "why_tests_cant": "Correctness for every pair of layouts cannot be sampled; the mask is addressed with the data's strides.", "anchors": ["bland/bland/ops/cpu/statistical_cpu.cpp: masked_mean_impl, masked_stddev_impl, masked_mean_stddev"]}
{"id": "C11", "title": "median returns the middle order statistic", "statement": "median of n>=1 values is the middle element of the sorted sequence for odd n and the average of the two middle elements for even n, independent of the input order.", "quantifier": "all non-empty value lists", "why_tests_cant": "All lengths and permutations.", "anchors": ["bland/bland/ops/cpu/statistical_cpu.cpp: median"]}
{"id": "C12", "title": "Scalar minus array and scalar divided by array", "statement": "scalar - array has elements a_i - scalar and scalar / array has elements a_i * scalar, for every view, scalar and arithmetic (so keeping the operand order, as for plain numbers, is false).", "quantifier": "all arrays and scalars", "why_tests_cant": "A test with a symmetric choice hides the swapped operands; the statement is about every value.", "anchors": ["bland/bland/ndarray.cpp: operator-(T,ndarray), operator/(T,ndarray)"]}
{"id": "C13", "title": "Comparisons with the scalar on the left", "statement": "scalar > array (and >=, <, <=) gives exactly array > scalar, element by element, for every view, scalar and comparison (so the operand order is not kept).", "quantifier": "all arrays, scalars and the four ordering comparisons", "why_tests_cant": "Every value of the array and scalar.", "anchors": ["bland/bland/ops/cpu/comparison_cpu.cpp"]}
{"id": "C14", "title": "arange and linspace generate the documented progressions", "statement": "On integers, arange(start,end,step) with a positive step lists (end-start)/step values start, start+step, ... rounded down, all below end; it contains every such value below end exactly when the step divides end-start, so 'every value below end' is false. linspace(start,end,n) has n equally spaced values starting at start with spacing (end-start)/n, so end itself is not reached; with 32-bit integers the spacing is rounded down and a descending range wraps around.", "quantifier": "all starts, ends, positive steps, counts", "why_tests_cant": "Unbounded parameter space; the last partial step matters.", "anchors": ["bland/bland/ops/creators.cpp: arange, linspace"]}
{"id": "C15", "title": "numel is the product of the dimensions", "statement": "numel() returns the product of the dimensions truncated to 32 bits: the product itself below 2^31 elements. From 2^31 elements on it can be anything (2^32 elements give 0, and fill then writes nothing), so 'numel is the product of the dimensions' is false for large arrays.", "quantifier": "all shapes including those with more than 2^31 elements", "why_tests_cant": "Tests cannot allocate arrays beyond 2^31 elements.", "anchors": ["bland/bland/ndarray.cpp: numel"]}
{"id": "C16", "title": "Device strings are parsed faithfully", "statement": "'cpu' names the CPU. 'cuda:' followed by optional white space, an optional sign and digits names the GPU with that number, whatever follows the digits; without digits it throws invalid_argument, and a number that is no int throws out_of_range. Every other string that starts with 'cuda' names GPU 0, so 'cudamanaged:3 is managed memory of GPU 3' is false, and managed and pinned memory cannot be named. All remaining strings throw runtime_error.", "quantifier": "all strings", "why_tests_cant": "All strings.", "anchors": ["bland/bland/ndarray.cpp: dev::dev(string_view)"]}
{"id": "C17", "title": "Deferred arrays and their generators", "statement": "In every history of creations, copies, reads and moves, a generator runs at most once under the memoize and eager policies; every read returns the value of one of the runs (the only one under those policies), moved to the recorded device. A deferred array constructed from a callable with the default policy runs it again at every read (so the header's 'executes only once by default' is false).", "quantifier": "all sequences of copies, reads, device changes", "why_tests_cant": "Histories of copies and reads are unbounded.", "anchors": ["bland/bland/ndarray_deferred.cpp", "bland/bland/include/bland/ndarray_deferred.hpp"]}
{"id": "C18", "title": "Drift plane bins are the average power along their drift track", "statement": "For the CPU kernel, plane(d,f) is (1/T) times the sum over time steps t and desmearing bins k of spectrum(t, f+round(m_d*t)+-k)/desmear_d, where contributions whose channel is outside the band (or, for negative drifts, bins left of the drift span) are absent; no other input bin influences it.", "quantifier": "all spectra, sizes T,N, all drift lists within the band, all values", "why_tests_cant": "Sizes, slopes and values are unbounded.", "anchors": ["bliss/drift_search/kernels/drift_integration_cpu.cpp: integrate_linear_rounded_bins_cpu"]}
{"id": "C19", "title": "Drift integration never accesses memory outside its arrays", "statement": "When every drift's span and desmearing width fit the band (|span| + width - 1 <= channels), every read of the spectrum and mask and every write of the plane and counters made by the CPU kernel is within the row it belongs to, and the search completes. When one does not fit, or the data has a single time step, the search is undefined behaviour, so 'drift integration is memory safe for all options' is false.", "quantifier": "all T, N, drift ranges, desmear settings", "why_tests_cant": "The failing combinations (drift span or desmear offset beyond the band) are rare and silent.", "anchors": ["bliss/drift_search/kernels/drift_integration_cpu.cpp lines 60-130"]}
{"id": "C20", "title": "CPU and CUDA drift integration agree", "statement": "Wherever the whole track (with desmearing) stays inside the band and the same channel offsets are used, the CUDA kernel returns the same counters as the CPU kernel under every thread schedule, and the same value when division is exact or no desmearing happens. The offsets of the two differ by at most one channel, and not at all at the first and last time step or when the number of steps is a power of two plus one. Tracks cut by the band edge, desmearing in binary32 and the rounding of offsets make them differ, so 'both backends compute the same plane' is false.", "quantifier": "all spectra, sizes, drifts, channels", "why_tests_cant": "Needs both devices and every edge position.", "anchors": ["bliss/drift_search/kernels/drift_integration_cpu.cpp", "bliss/drift_search/kernels/drift_integration_cuda.cu"]}
{"id": "C21", "title": "The generic (bland) drift kernel agrees with the CPU kernel", "statement": "For every drift whose track stays within the band the slice-based kernel performs on each bin the same additions in the same order as the CPU kernel.", "quantifier": "all spectra, sizes, drifts", "why_tests_cant": "All sizes and drifts.", "anchors": ["bliss/drift_search/kernels/drift_integration_bland.cpp", "bliss/drift_search/kernels/drift_integration_cpu.cpp"]}
{"id": "C22", "title": "The searched drift grid is exactly the requested one", "statement": "For 2 to 2^24 time steps, a positive step and bounds below 2^22 in size with low <= high, compute_drifts yields exactly the (high-low)/step spans (rounded down) low, low+step, ..., all in [low,high), in increasing order without repetition, each with desmear = 1 when desmearing is off and max(1, the integer nearest |span|/(T-1)) when on. A zero step and a range shorter than one step are undefined behaviour, and a range reversed by at least a step throws, so 'every requested range is searched' is false.", "quantifier": "all low/high/step, T>=2", "why_tests_cant": "All option combinations.", "anchors": ["bliss/drift_search/integrate_drifts.cpp: compute_drifts"]}
{"id": "C23", "title": "A drift track starts at its channel and ends exactly at its span", "statement": "With the floating-point slope float(span)/float(T-1), the channel offset is 0 at t=0, is monotone in t, has the sign of the span, never exceeds |span| and equals span at the last time step.", "quantifier": "all |span| < 2^22, all 2 <= T <= 2^24", "why_tests_cant": "The claim is about rounding in float32 arithmetic for every pair (span,T).", "anchors": ["bliss/drift_search/integrate_drifts.cpp: compute_drifts", "bliss/drift_search/kernels/drift_integration_cpu.cpp: offset computation"]}
{"id": "C24", "title": "RFI counters count the flagged bins along the track", "statement": "After integration each RFI counter of plane bin (d,f) equals, modulo 256, the number of (t,k) track bins with that flag bit set; it equals that number when there are at most 255 of them, and longer tracks wrap around.", "quantifier": "all masks, sizes, drifts", "why_tests_cant": "The 8-bit counter only misbehaves beyond 255 counted bins.", "anchors": ["bliss/drift_search/kernels/drift_integration_cpu.cpp: rfi counters", "bliss/core/include/core/integrate_drifts_options.hpp: integrated_flags"]}
{"id": "C25", "title": "GPU drift integration does not depend on the thread schedule", "statement": "The result of the CUDA integration kernel is the same for every interleaving of its threads' memory operations and for every grid/block decomposition.", "quantifier": "all interleavings, all launch geometries", "why_tests_cant": "Schedules cannot be enumerated by tests.", "anchors": ["bliss/drift_search/kernels/drift_integration_cuda.cu"]}
{"id": "C26", "title": "Connected-component search terminates and partitions the significant bins", "statement": "For every plane and every finite threshold from 0 on, find_components_above_threshold terminates; the returned components are non-empty and pairwise disjoint, every bin above the threshold belongs to exactly one component and every member bin exceeds half the threshold. For a negative threshold a component can be empty, so 'for every threshold' is false.", "quantifier": "all planes, thresholds, noise values, neighbourhood sizes", "why_tests_cant": "All plane contents; termination and disjointness are global.", "anchors": ["bliss/drift_search/kernels/connected_components_cpu.cpp: find_components_above_threshold"]}
{"id": "C27", "title": "A component is exactly the set of bins reachable from its seed", "statement": "Each returned component consists of exactly the bins above half the threshold that can be reached from its seed by neighbourhood steps through bins above half the threshold and not claimed earlier.", "quantifier": "all planes", "why_tests_cant": "Reachability over arbitrary planes.", "anchors": ["bliss/drift_search/kernels/connected_components_cpu.cpp: find_components_above_threshold"]}
{"id": "C28", "title": "The reported peak is the strongest bin of the component", "statement": "index_max of each component is one of its bins and no bin of the component has a larger SNR; the reported max_integration, snr, noise, width and centre are those of that bin and component. This holds for binary32 planes and thresholds from 2^-125 on.", "quantifier": "all planes with positive thresholds", "why_tests_cant": "All values.", "anchors": ["bliss/drift_search/kernels/connected_components_cpu.cpp"]}
{"id": "C29", "title": "The RFI counts of a protohit", "statement": "rfi_counts attached to a component of the CPU search are the counters of the bin at which the scan first met the component; they can differ from those of its peak bin (so 'those of the peak' is false).", "quantifier": "all planes and counters", "why_tests_cant": "Only fails when the seed is not the peak.", "anchors": ["bliss/drift_search/kernels/connected_components_cpu.cpp lines 150-165"]}
{"id": "C30", "title": "Binary-mask components are a partition of the mask", "statement": "find_components_in_binary_mask terminates; its components are disjoint, non-empty, contain only set bins and cover every set bin, and each is connected under the given neighbourhood.", "quantifier": "all masks and neighbourhoods", "why_tests_cant": "All masks.", "anchors": ["bliss/drift_search/kernels/connected_components_cpu.cpp: find_components_in_binary_mask"]}
{"id": "C31", "title": "CPU local-maxima search", "statement": "find_local_maxima_above_threshold on the CPU reports nothing at all, for every plane, threshold and distance of at least one, since each bin is also compared with itself. Without a neighbourhood (distance zero) it reports only bins above the threshold, each at most once, and each bin above the threshold lies on the flank of a reported one.", "quantifier": "all planes and L1 neighbourhood sizes", "why_tests_cant": "The failure is for every plane when the neighbourhood is non-empty.", "anchors": ["bliss/drift_search/kernels/local_maxima_cpu.cpp", "bliss/drift_search/kernels/local_maxima_cuda.cu"]}
{"id": "C32", "title": "GPU protohit merging gives the same hits for every schedule", "statement": "For every interleaving of the concurrent merge threads and every number of threads, the merge terminates without undefined behaviour, the surviving protohits are exactly one per group of touching protohits, and the survivor is the strongest of its group. This needs a neighbourhood distance of at least 2, SNRs without NaN and a protohit table with room for all peaks. With more peaks than entries the table overflows, distance 0 is a division by zero, distance 1 can overflow, and peaks in the first channels are not merged with their neighbours, so the claim is false for all inputs.", "quantifier": "all interleavings, all sets of protohits and adjacencies", "why_tests_cant": "Schedules of lock-free compare-and-swap loops.", "anchors": ["bliss/drift_search/kernels/connected_components_cuda.cu: merge_labels"]}
{"id": "C33", "title": "GPU label resolution gives the same labels for every schedule", "statement": "For every interleaving of the in-place label resolution of labels whose chains all end, the resolution terminates and each bin ends with the label at the end of its chain; in a search that chain is the climb to stronger neighbours and the label is that of the protohit at its top. Labels that form a cycle can make it loop forever.", "quantifier": "all interleavings, all acyclic label chains", "why_tests_cant": "Threads read labels that other threads rewrite concurrently.", "anchors": ["bliss/drift_search/kernels/connected_components_cuda.cu: find_root, resolve_labels"]}
{"id": "C34", "title": "Hit fields come from the protohit and the channel", "statement": "The CPU component search (threshold from 2^-125 on) yields exactly one hit per component, in order. Its start_freq_index, rate_index, drift rate, power, snr, bandwidth, bin count, start time, duration and coarse channel are the documented functions of the component and the channel metadata, and its start frequency is that of the middle of the component's extent. So 'start_freq_MHz is the frequency of start_freq_index' is false. time_span_steps is never written, so two identical searches may give hits that compare unequal. A drift table shorter than the plane is undefined behaviour.", "quantifier": "all protohit lists and metadata", "why_tests_cant": "All metadata and peak positions.", "anchors": ["bliss/drift_search/hit_search.cpp: hit_search"]}
{"id": "C35", "title": "filter_hits drops exactly the documented hits", "statement": "filter_hits keeps, in order, exactly the hits with no rolloff and no low-spectral-kurtosis counts and (when requested) a drift rate of magnitude at least the double nearest 1e-6; it is idempotent, and a channel without hits throws. A kept hit has the counts it had, but looking up a missing count stores a zero, so 'kept hits are unchanged' is false under the hits' own comparison.", "quantifier": "all hit lists and options", "why_tests_cant": "All lists.", "anchors": ["bliss/drift_search/filter_hits.cpp"]}
{"id": "C36", "title": "Every hit is used in at most one event", "statement": "For every cadence with at least one target, each hit of the first (on) target contributes to at most one event, every event has at least two hits, at most one from each of its scans and in their order, each within the match distance of the event so far, and no reported event lies within the match distance of a hit of another target. This holds for every behaviour of the distance cache that answers with the distance of an equal pair of hits; the cache's comparison is not transitive, so the ordered map holding it is used against its contract. A cadence without targets is undefined behaviour.", "quantifier": "all cadences (any number of observations and hits) and all distances", "why_tests_cant": "Greedy matching over arbitrary hit sets.", "anchors": ["bliss/drift_search/event_search.cpp"]}
{"id": "C37", "title": "Symmetry of the event distance", "statement": "In exact arithmetic the distance between hits a and b equals the distance between b and a when their durations or their drift rates are equal. In general it is not symmetric: the duration of the second hit is used for both, the difference is proportional to the difference of durations, and in single precision one order can match two hits that the other does not.", "quantifier": "all pairs of hits", "why_tests_cant": "All pairs.", "anchors": ["bliss/drift_search/event_search.cpp: distance_func"]}
{"id": "C38", "title": "Hits are totally ordered and the order is consistent with equality", "statement": "On hits without NaN, operator< is a strict total order on the compared fields and a==b exactly when neither a<b nor b<a, so such hits may be used as ordered-set keys. With NaN the order is not even a weak order, and the coarse channel number is not compared, so 'equal hits agree in all fields' is false.", "quantifier": "all triples of (non-NaN) hits", "why_tests_cant": "All triples.", "anchors": ["bliss/core/include/core/hit.hpp"]}
{"id": "C39", "title": "Hit state tuples round-trip", "statement": "Rebuilding a hit from its state tuple gives back the indices, bin count, snr and bandwidth, the frequency, drift and power when they are binary32 values, and step counts up to 2^24; start time, duration, RFI counts and coarse channel keep the values of the hit that is overwritten. Pickling the rebuilt hit gives the same tuple again. Doubles are narrowed to binary32, so 'pickling keeps a hit' is false, and a step count of 2^63-1 is undefined behaviour.", "quantifier": "all hits", "why_tests_cant": "All field values.", "anchors": ["bliss/core/include/core/hit.hpp: get_state, set_state"]}
{"id": "C40", "title": "Slicing scans composes", "statement": "Slicing a scan and then slicing the result selects the same coarse channels as one slice with added start; coarse channel i of a slice is coarse channel start+i of the parent. Their frequencies are equal in exact arithmetic; in doubles they can differ in the last place, so 'with the same frequencies' is false. Slicing a scan built from channels in memory is undefined behaviour.", "quantifier": "all scans, starts, counts, nesting", "why_tests_cant": "All nestings.", "anchors": ["bliss/core/scan.cpp: slice_scan_channels, read_coarse_channel"]}
{"id": "C41", "title": "Coarse channels can only be read inside the scan", "statement": "In every history over a file with the attributes nbits and nifs, reading coarse channel i of a scan with n of them throws out_of_range for i < 0 and for i > n, and for 0 <= i < n reads exactly the fine channels of coarse channel start+i, or throws when the file ends before. The index n itself is accepted and yields the channel after the end, so 'only channels of the scan can be read' is false. Without those attributes a read is undefined behaviour.", "quantifier": "all scans and indices", "why_tests_cant": "All indices.", "anchors": ["bliss/core/scan.cpp: read_coarse_channel"]}
{"id": "C42", "title": "Reading a coarse channel is cached and applies the pipeline in order", "statement": "In every history of reads, slices, copies, transforms and device changes, reading a coarse channel gives the raw channel of the file with every transform registered on that scan applied once, in registration order, and later reads of it through the same scan create no new channel. Scans that were copied or sliced before a read each create their own, and each access to the data of an unprocessed channel reads the file again, so 'the file is read once' is false.", "quantifier": "all histories of reads, slices and transform registrations", "why_tests_cant": "Histories.", "anchors": ["bliss/core/scan.cpp: read_coarse_channel, add_coarse_channel_transform"]}
{"id": "C43", "title": "Frequency lookup inverts channel frequencies", "statement": "In exact arithmetic get_coarse_channel_with_frequency maps every frequency inside coarse channel i to i, for rising and falling frequency axes. In doubles the first frequency of a channel can be mapped to the channel before it, so the claim is false of the code.", "quantifier": "all scans, channels, frequencies", "why_tests_cant": "Continuous domain.", "anchors": ["bliss/core/scan.cpp: get_coarse_channel_with_frequency"]}
{"id": "C44", "title": "Inferred channelization divides the band", "statement": "infer_number_coarse_channels never throws, and when it returns, the product of its two numbers is the number of channels. It divides by zero exactly when no known channelization matches and the number of channels is below 2^18, or is below a million and not divisible by its quotient by 2^18. A requested number of fine channels is taken as it is, whether it divides the band or not.", "quantifier": "all channel counts, resolutions and requests", "why_tests_cant": "All channel counts.", "anchors": ["bliss/core/scan.cpp: infer_number_coarse_channels, known_channelizations"]}
{"id": "C45", "title": "Consistency checks of observations", "statement": "validate_scan_consistency is false, and the channel count and channel-by-frequency lookups throw, for every nonempty target or cadence whose first scan has a finite first channel frequency or channel width, whether the scans agree or not (so 'consistent observations are accepted' is false); over exact numbers only an empty target is accepted. For an empty target those lookups are undefined behaviour, for an empty cadence they throw.", "quantifier": "all targets and cadences", "why_tests_cant": "The failure is for every input.", "anchors": ["bliss/core/cadence.cpp: validate_scan_consistency (both)"]}
{"id": "C46", "title": "Target name lists the sources", "statement": "The target name is 'unknown' without named scans, the common name when all named scans agree, and otherwise starts with the first name.", "quantifier": "all scan lists", "why_tests_cant": "All lists of names.", "anchors": ["bliss/core/cadence.cpp: extract_source_name_from_scans"]}
{"id": "C47", "title": "set_device of scans, targets and cadences", "statement": "set_device with an invalid CUDA device raises an error and leaves targets, cadences and channels, and the devices of all their children, unchanged; with a valid one the object and all its children, with all channels read so far, use the device. A scan that refuses a device nevertheless keeps it, and then throws on every read of a cached channel.", "quantifier": "all object trees, devices, validity answers", "why_tests_cant": "All trees.", "anchors": ["bliss/core/cadence.cpp: set_device", "bliss/core/scan.cpp: set_device", "bliss/core/coarse_channel.cpp: set_device"]}
{"id": "C48", "title": "Flaggers and set flags", "statement": "flag_magnitude and flag_spectral_kurtosis leave undetected bins unchanged, and where their own bits are still clear set exactly those bits on exactly the detected bins. They add instead of or-ing: where the bit is already set, flagging again clears it and flips the next bit, and sixteen applications restore the mask (so flagging is not monotone).", "quantifier": "all masks and data", "why_tests_cant": "All mask values; addition and bit-or differ only on overlap.", "anchors": ["bliss/flaggers/magnitude.cpp", "bliss/flaggers/sigmaclip.cpp", "bliss/flaggers/spectral_kurtosis.cpp", "bliss/flaggers/filter_rolloff.cpp"]}
{"id": "C49", "title": "Rolloff flags at the band edges", "statement": "With n rolloff channels, 1 <= n < nchans, reading the mask of a channel flagged by flag_filter_rolloff k times leaves the original mask plus k in the first n channels and plus k in the last n+1, modulo 256: one channel too many is flagged at the upper edge, and each read changes the mask again. With n = 0 every channel is flagged; with n >= nchans the read is undefined behaviour.", "quantifier": "all channel counts, widths, numbers of reads", "why_tests_cant": "All widths and numbers of reads.", "anchors": ["bliss/flaggers/filter_rolloff.cpp", "bland/bland/ndarray_deferred.cpp"]}
{"id": "C50", "title": "Noise estimation ignores flagged bins", "statement": "With masking on, the noise estimate depends only on unflagged bins; a fully flagged channel is an error.", "quantifier": "all data and masks", "why_tests_cant": "All data and masks.", "anchors": ["bliss/estimators/noise_estimate.cpp", "bland/bland/ops/cpu/statistical_cpu.cpp"]}
{"id": "C51", "title": "Sigma clipping", "statement": "flag_sigmaclip throws on every float32 or int32 channel, and is undefined behaviour on every nonempty unsigned one; it never returns a mask for them.", "quantifier": "all float32 channels", "why_tests_cant": "Fails on every input of the type used.", "anchors": ["bliss/flaggers/sigmaclip.cpp", "bland/bland/ops/cpu/statistical_cpu.cpp: masked_mean_stddev"]}
{"id": "C52", "title": "Hits written to a capnp file are read back", "statement": "Reading a capnp hits file returns as many hits as were written, in order. Frequency, drift rate, snr and bandwidth are equal bit for bit, the width is equal (up to 2^24 bins), index, drift index and time steps keep their low 32 bits, start time, duration and power are rounded to single precision. A second trip changes nothing more. Not kept (so 'every field survives' is false): flag counts, the coarse channel number, and the start time, which moves by minutes for present-day dates.", "quantifier": "all hit lists", "why_tests_cant": "All lists and values.", "anchors": ["bliss/file_types/cpnp_files.cpp", "bliss/file_types/detail/cpnp_hit_builder.cpp"]}
{"id": "C53", "title": "A truncated hits file yields a prefix of the hits", "statement": "Reading a hits file cut after any number k of bytes returns exactly the first k/104 hits, never a corrupted one. A damaged message header in the middle is taken for the end of the file: later hits are dropped without an error; so is a segment of more than 8 Mi words or whose root leads out of it, while a hit in a longer segment of up to 8 Mi words is read.", "quantifier": "all hit lists, all truncation points, all contents after the damage", "why_tests_cant": "All crash points.", "anchors": ["bliss/file_types/cpnp_files.cpp: read_hits_from_capnp_file"]}
{"id": "C54", "title": "Whatever format a hits file is written in, the matching read succeeds", "statement": "read_scan_hits_from_file with the arguments given to write_scan_hits_to_file looks for the format that was written exactly when the format is 'capnp', or is left out and the path does not end in '.dat'; otherwise (so the claim in the title is false) it throws.", "quantifier": "all paths and format strings", "why_tests_cant": "All strings.", "anchors": ["bliss/file_types/hits_file.cpp"]}
{"id": "C55", "title": "dat files number hits from 1 and describe one hit per row", "statement": "The dat file of a scan holds nine comment lines and then, after skipping comments, one line per hit in order, numbered 1..n, whose cells show the drift rate, SNR, start frequency (to 5e-7), index, coarse channel and bins of that hit, and whose end and middle frequencies are start + duration*drift and start + duration*drift/2 within 6e-7 MHz (for magnitudes up to 10^6); a scan without coordinates throws. False: the cells stand under their headings \u2014 the column headed Coarse_Channel_Number is always 0.000000, the coarse channel stands under Full_number_of_hits and the bins under no heading.", "quantifier": "all hit lists (frequency bounds: all finite hits of magnitude up to 10^6), all scan attributes", "why_tests_cant": "All lists, all doubles.", "anchors": ["bliss/file_types/dat_file.cpp lines 48-123"]}
{"id": "C56", "title": "Sexagesimal source coordinates are well formed", "statement": "The hour, minute and second fields written for a right ascension in [0, 32] hours, and the sign, degree, minute and second fields of a declination within 360 degrees, parse as such, minutes are 0..59, and they recombine to the coordinate within 0.51 of the last printed digit; the sign is minus exactly for negative declinations. False: seconds stay below 60 (0.99999999 h prints 00h59m60.000s); negative right ascensions (-0.5 prints 00h-30m00.000s); coordinates that are not finite or whose whole part is not an int (undefined behaviour). Fields are padded to two characters, signs included.", "quantifier": "all finite doubles in the stated ranges; all non-finite doubles", "why_tests_cant": "Continuous domain including negatives.", "anchors": ["bliss/file_types/dat_file.cpp lines 15-46"]}
{"id": "C57", "title": "Filterbank shapes", "statement": "Opening an h5 filterbank accepts exactly the files whose time, feed and frequency axes are labelled, with a single feed, whose other axes have a size different from one, and which have a channel count; the shape is (time, frequency). Extra axes of size one are refused although harmless, and files with extra axes of another size are accepted although every read of them is undefined behaviour.", "quantifier": "all dimension/label lists", "why_tests_cant": "All label permutations.", "anchors": ["bliss/file_types/h5_filterbank_file.cpp: get_data_shape"]}
{"id": "C58", "title": "One output per input scan", "statement": "bliss_find_hits on several inputs should leave the hits of every input in its own file; it does not: all scans are written to one file, named after the first input unless -o is given, which ends up with the hits of the last scan. No other file is touched, and exceptions end the loop without being reported to the caller; if the exception comes from writing, the output is left empty and the hits written before are lost.", "quantifier": "all lists of input files", "why_tests_cant": "All lists.", "anchors": ["bliss/bliss_find_hits.cpp"]}
{"id": "C59", "title": "DLPack export of arrays and slices", "statement": "Exporting a whole array through DLPack keeps its layout. For a view, the exported element at every index is the one as many cells before the right one as the offsets of the view add up to (so exports of slices with a nonzero start show other elements).", "quantifier": "all arrays and views, all indices", "why_tests_cant": "All slice offsets.", "anchors": ["bland/bland/bland_tensor_internals.cpp: to_dlpack"]}
{"id": "C60", "title": "Array files", "statement": "write_to_file writes the elements of any view in row-major order, and read_from_file of a file of whole elements returns them in order; a file that ends within an element makes read_from_file write outside its buffer.", "quantifier": "all views and all file contents of any length", "why_tests_cant": "All lengths, including truncated files.", "anchors": ["bland/bland/ops/cpu/ops_cpu.cpp: write_to_file, read_from_file"]}
{"id": "C61", "title": "Number of elements of a strided slice", "statement": "slice(a,{dim,start,end,stride}) with a stride that does not divide end-start has floor((end-start)/stride) entries along dim, so the last entry start+i*stride below end is missing, for every array and such stride.", "quantifier": "all sizes, starts, ends, strides", "why_tests_cant": "All strides that do not divide the length.", "anchors": ["bland/bland/ops/ops.cpp: slice"]}
{"id": "C62", "title": "Broadcasting operands of different ranks", "statement": "An element-wise operation of an n by n array with a vector of n elements, a broadcast-compatible pair for every n, is undefined behaviour in the operations that expand shapes; operations that take the shape of the left operand never return any other shape, compatible or not (so 'every compatible pair is broadcast' is false).", "quantifier": "all pairs of compatible shapes, all operations", "why_tests_cant": "All rank combinations.", "anchors": ["bland/bland/internal/include/internal/shape_helpers.cpp: compute_broadcast_shape", "bland/bland/ops/cpu/arithmetic_cpu.cpp", "bland/bland/ops/cpu/comparison_cpu.cpp"]}
{"id": "C63", "title": "Copying between different shapes", "statement": "Assigning an array to a slice of the same rank never raises an error, whatever the two shapes are.", "quantifier": "all pairs of shapes of the same rank", "why_tests_cant": "All shapes.", "anchors": ["bland/bland/ops/cpu/elementwise_unary_op.hpp", "bland/bland/ndarray_slice.cpp"]}
{"id": "C64", "title": "Flagging or equalising a whole scan", "statement": "flag_magnitude(scan) and the other flaggers and equalize_passband_filter taking a scan leave every later channel read exactly as it would be had the flagger computed anything else: the results go to copies that are dropped, and no transform is registered.", "quantifier": "all scans, all flaggers, all channel counts", "why_tests_cant": "All flagger behaviours.", "anchors": ["bliss/flaggers/magnitude.cpp", "bliss/preprocess/passband_static_equalize.cpp"]}
{"id": "C65", "title": "Slices of targets and cadences", "statement": "slice_scan_channels of a target slices each of its scans with the same arguments, in order; the result has no target name and the default device, whatever the original had.", "quantifier": "all targets, scans, starts and counts", "why_tests_cant": "All lists of scans.", "anchors": ["bliss/core/include/core/cadence.hpp", "bliss/core/cadence.cpp: slice_observation_channels"]}
{"id": "C66", "title": "File reads and the order of file axes", "statement": "Reading a window of fine channels of a filterbank laid out (time, feed, frequency) returns exactly those columns of every time step, or an HDF5 error when the window leaves the file; a file laid out and labelled (frequency, feed, time) reports the same shape but is read as if it were not transposed.", "quantifier": "all file sizes, contents, windows", "why_tests_cant": "All sizes and windows.", "anchors": ["bliss/file_types/h5_filterbank_file.cpp: get_data_shape, read_data"]}
{"id": "C67", "title": "The hits of a scan", "statement": "scan.hits() is the concatenation of the hits of coarse channels 0, 1, ... in order, leaving out the channels whose hits raise a logic error.", "quantifier": "all scans, all channel counts, all per-channel outcomes", "why_tests_cant": "All combinations of failing channels.", "anchors": ["bliss/core/scan.cpp: hits"]}
{"id": "C68", "title": "Spectral kurtosis is the published estimator", "statement": "estimate_spectral_kurtosis gives, for each channel, (M*S2/S1^2 - 1)*(M*N*d + 1)/(M - 1) of that channel's samples; in exact arithmetic it does not depend on sample order or gain, is never negative, is 0 for a constant channel and at most M*N*d + 1 for power data; in floating point a channel of zeros has a NaN estimate and is never flagged.", "quantifier": "all spectra shapes, samples, N, M, d and thresholds", "why_tests_cant": "All samples, all gains, all orders.", "anchors": ["bliss/estimators/spectral_kurtosis.cpp", "bliss/flaggers/spectral_kurtosis.cpp"]}
{"id": "C69", "title": "Preprocessing divides by the right value", "statement": "normalize divides every sample by the channel's maximum (the code does not: it is undefined on every two-dimensional channel); equalize_passband_filter divides sample (t,c) by h(c), and is undefined exactly when the channel has one bin or as many bins as time steps.", "quantifier": "all channel shapes, data and responses", "why_tests_cant": "All shapes; the failing shapes are special coincidences.", "anchors": ["bliss/preprocess/normalize.cpp", "bliss/preprocess/passband_static_equalize.cpp", "bland/bland/internal/include/internal/shape_helpers.cpp"]}
{"id": "C70", "title": "Designed filters have linear phase", "statement": "In exact arithmetic the taps of firdes are symmetric about the middle of the filter.", "quantifier": "all tap counts, cutoffs and tap positions", "why_tests_cant": "All lengths.", "anchors": ["bliss/preprocess/passband_static_equalize.cpp: firdes"]}
{"id": "C71", "title": "Scan files keep the scan and its hits", "statement": "Reading a capnp scan file gives a scan with the same channel count, frequencies, source, position and times whose hits are the hits of the written scan, in order, kept as in a hits file, provided every channel had been read before writing. The channels keep frequencies, source, position, telescope and times, report 32 bits and lose their number. Channels that had not been read come back empty and with zero metadata; a scan with more than 932067 hits is written but cannot be read; a scan read from a file cannot be written again; a scan without channels cannot be read.", "quantifier": "all scans, channel contents, hit lists and message encodings", "why_tests_cant": "All combinations of read and unread channels, all sizes.", "anchors": ["bliss/file_types/detail/cpnp_hit_builder.cpp", "bliss/file_types/cpnp_files.cpp: write_scan_hits_to_capnp_file, read_scan_hits_from_capnp_file"]}
{"id": "C72", "title": "Event files keep the hits of every event", "statement": "Reading an events file returns as many events as were written, in order, with their hits kept as in a hits file; a file cut anywhere yields the complete events. The summary fields of every event come back as zero, and an event of more than 381300 hits hides itself and all later events.", "quantifier": "all event lists, all message encodings, all truncation points", "why_tests_cant": "All lists, all crash points.", "anchors": ["bliss/file_types/events_file.cpp"]}
{"id": "C73", "title": "Target and cadence files keep the order of scans", "statement": "Writing a cadence stores one scan message per scan, grouped by target and in order, and reading returns one scan per message in the same arrangement.", "quantifier": "all cadences", "why_tests_cant": "All list shapes.", "anchors": ["bliss/file_types/detail/cpnp_hit_builder.cpp: bliss_cadence_to_capnp_cadence_message, capnp_cadence_message_to_cadence"]}
{"id": "C74", "title": "Converting a hit file to a dat file keeps what the file kept", "statement": "A hit written to a hit file, read back and printed as a dat row has the same number, drift rate, SNR, start frequency and bins cells as if printed directly; the index cell too when it fits 32 bits; the end and middle frequencies too when the duration is a single-precision number; the coarse channel cell is always 0.", "quantifier": "all hits and row numbers", "why_tests_cant": "All doubles; interplay of two file formats.", "anchors": ["bliss/bliss_hits_to_dat.cpp", "bliss/file_types/dat_file.cpp format_hits_to_dat_list", "bliss/file_types/cpnp_files.cpp"]}
{"id": "C75", "title": "GPU reductions compute the mathematical reduction", "statement": "In exact arithmetic, for every unsliced array of one to four dimensions and every choice of axes, every execution of the GPU kernels for sum, mean, standard deviation, variance, mean_stddev and the masked forms ends, without deadlock or undefined behaviour, with each output equal to the reduction of the elements that belong to it; max gives the largest element that is not NaN; the result does not depend on the interleaving, also in floating point; and sum and mean are what the CPU computes.", "quantifier": "all shapes up to four dimensions, strides, axes, data, masks, initial contents of shared memory and outputs, and all interleavings of threads and blocks", "why_tests_cant": "All interleavings of a parallel program with barriers; all shapes, block counts and remainders.", "anchors": ["bland/bland/ops/cuda/statistical_cuda.cu: reduction_impl (both forms), mean_stddev_impl, comparison_reduction_impl", "bland/bland/ops/cuda/statistical_cuda.cu: statistical_launch_wrapper"]}
{"id": "C76", "title": "Where GPU reductions differ from the CPU", "statement": "A slice is reduced on the GPU as if it began at the start of its buffer, so that a sliced input gives the sum of other elements; beyond 1024 outputs the rounding correction of one output is carried into a later one, so that a row of zeros can sum to 1; with more than 1024 outputs in at least two rows the unmasked mean_stddev never writes the last deviation; an output all of whose elements are masked has mean NaN where the CPU throws; five or more dimensions are undefined on the GPU and fine on the CPU.", "quantifier": "all sliced arrays, all shapes with more than 1024 outputs, all masks, all arrays of five or more dimensions, all executions", "why_tests_cant": "Needs inputs of more than a thousand outputs or special shapes, and all interleavings.", "anchors": ["bland/bland/ops/cuda/statistical_cuda.cu"]}
{"id": "C77", "title": "GPU local-maxima search reports exactly the local maxima", "statement": "Every execution of the GPU local-maxima search ends. A peak is a bin above the threshold whose half-open diamond neighbourhood lies inside the plane and holds no stronger bin. If the peaks fit into numel / distance^2 slots, the reports are exactly one per peak, in some order, each with its own power, noise, SNR and the descending flanks as its extent. If they do not fit, no execution completes and results are written past the end of the buffer; a plane of equal significant values is such a case. A distance of zero divides by zero.", "quantifier": "all planes, noise values, thresholds, distances and interleavings of threads", "why_tests_cant": "All interleavings of a parallel program; the overflow depends on the data.", "anchors": ["bliss/drift_search/kernels/local_maxima_cuda.cu: local_maxima_kernel, find_local_maxima_above_threshold_cuda"]}
{"id": "C78", "title": "A channel search finds exactly the significant drifting lines", "statement": "Searching a channel on the CPU with the masked noise estimate and the connected-components method succeeds whenever some sample is unflagged, the search grid is not empty, its lines fit into the channel and the plane is smaller than 2^31 bins. Noise floor and noise power are the mean and the standard deviation of exactly the unflagged samples; the noise of a drift is the power divided by sqrt(spectra * desmeared channels), to 2^-23; every line whose average power exceeds the threshold in SNR has a hit at least as strong; every hit is the strongest line of its component and carries the SNR, start channel, drift rate in Hz/s, bandwidth and flag counts of that component, bit for bit. The other methods find nothing on the CPU. The claim that strong lines are always found fails when the noise power is NaN: rounding can make the masked deviation the root of a negative number on a flat channel, and then nothing is found.", "quantifier": "all channels, masks, drift grids, thresholds and channel descriptions", "why_tests_cant": "All data and all grids; composition of five stages with rounding; the NaN needs more than 32 equal samples.", "anchors": ["bliss/drift_search/protohit_search.cpp: protohit_search", "bliss/drift_search/hit_search.cpp: hit_search", "bliss/drift_search/integrate_drifts.cpp: integrate_drifts", "bliss/estimators/noise_estimate.cpp: estimate_noise_power", "bliss/core/noise_power.cpp", "bland/bland/ops/cpu/statistical_cpu.cpp: masked_mean_stddev"]}
{"id": "C79", "title": "GPU element-wise operations give the CPU's results", "statement": "For arrays and views of up to four dimensions with fewer than 2^31 elements, every execution of the GPU kernels for arithmetic of two arrays (with broadcasting), arithmetic and comparison with a scalar, copying into a view and filling a view ends, without deadlock or undefined behaviour, with exactly the buffer contents the CPU kernels produce, and changes no cell outside the destination view. Views that span 2^32 or more cells are read from wrong cells; copying a shorter array into a longer one is not refused and reads past its end; with the scalar on the left a comparison compares the element with the scalar.", "quantifier": "all shapes up to four dimensions, strides, offsets, data, initial outputs and all interleavings of threads and blocks", "why_tests_cant": "All interleavings of a parallel program; all strided views; the wrap-around needs arrays of more than 2^32 cells.", "anchors": ["bland/bland/ops/cuda/elementwise_binary_op_cuda.cuh", "bland/bland/ops/cuda/elementwise_scalar_op_cuda.cuh", "bland/bland/ops/cuda/elementwise_unary_op.cuh", "bland/bland/ops/cuda/ops_cuda.cu: assignment_kernel"]}
{"id": "C80", "title": "Counting true elements on the GPU", "statement": "For every array with fewer than 2^31 elements whose view begins at the start of its buffer, in any memory order, every execution of the GPU counting kernel ends, without deadlock or undefined behaviour, with the number of elements that convert to true, which is what the CPU counts. The offset of a slice is ignored: for any view the GPU counts the view of the same shape and strides at the start of the buffer, so that a slice of true elements can count 0.", "quantifier": "all shapes, strides, data, initial contents of shared memory and all interleavings of threads and blocks", "why_tests_cant": "All interleavings of a parallel program with barriers and atomics; all shapes and remainders.", "anchors": ["bland/bland/ops/cuda/count.cuh: count_true_kernel, count_launcher", "bland/bland/ops/statistical.cpp: count_true"]}
{"id": "C81", "title": "Power spectra and Fourier transforms", "statement": "On the CPU, fft_shift_mag_square of a one-dimensional float32 array puts, for every arithmetic and transform, the power of bin |j - N/2| at position j; in exact arithmetic this is the power spectrum of the first N cells of the buffer, lowest frequency first. A call is defined exactly for the odd lengths whose centre is computed exactly, as it is up to 2^24 + 1: every even length writes one float past the end of the result, and 2^25 + 3 writes before its start. On the GPU every execution ends and never writes position 0, nor the last position for odd lengths; the other positions are right. fft on the GPU is the discrete Fourier transform for even lengths; for odd lengths the upper half is off by one bin and the last element is never written. fft on the CPU computes nothing. The offset of a slice is ignored.", "quantifier": "all lengths below 2^31, data, arithmetics and transforms, initial contents of the result, and all interleavings of threads", "why_tests_cant": "All lengths including those beyond 2^24; writes outside a buffer may go unnoticed; uninitialised results vary.", "anchors": ["bland/bland/ops/frequency.cpp: fft_shift_mag_square, fft", "bland/bland/ops/cpu/frequency_cpu_impl.cpp", "bland/bland/ops/cuda/frequency_cuda.cu"]}
{"id": "C82", "title": "The channel response is the folded energy of the filter", "statement": "In exact arithmetic and with room for one float after the spectrum, gen_coarse_channel_response for an even channel width and an even number of channels gives, at each position of a channel, the power of the prototype filter at that offset from the channel's centre summed over the whole channels within the filter's span, divided by the largest such sum. With an odd number of channels the response is rotated by half a channel. Without that room no call has a defined result: each throws or writes past the end of the spectrum. An odd channel width always throws. A filter span of 2^31 samples or more, such as the default 2048 channels of 2^20, overflows.", "quantifier": "all channel widths, channel counts, taps per channel, filters, transforms and, where no value is claimed, arithmetics", "why_tests_cant": "All widths and counts; the exact sum over every channel; writes past a buffer may go unnoticed.", "anchors": ["bliss/preprocess/passband_static_equalize.cpp: gen_coarse_channel_response", "bland/bland/ops/frequency.cpp: fft_shift_mag_square"]}
{"id": "C83", "title": "What an event says about its hits", "statement": "Every event found starts at the frequency of its first hit and at the beginning of the scan of that hit; its power, bandwidth, SNR and drift rate are the means over all its hits, to within 2^(e+k-24), 2^(e+k-53) for the drift rate and 2^(e+k-23) for the power, for at most 2^k hits with values of at most 2^e; times are right to 2^-18 s and the frequency to 2^-14 Hz. The end of the event is the end of the scan of the first hit: an event can hold a hit that begins a day after its end.", "quantifier": "all cadences, hits, distance caches and all events found", "why_tests_cant": "All hit lists; the claim bounds rounding for every number of hits.", "anchors": ["bliss/drift_search/event_search.cpp: event_search"]}
{"id": "C84", "title": "Bandwidth, centre and flag counts of GPU protohits", "statement": "Every schedule of the last kernel of the GPU component search ends, without undefined behaviour, and one exists; the protohits exported are the surviving peaks, each with the flag counts stored for its own bin, and with the distance and midpoint of the nearest bins in its drift row, below and above, that belong to no peak, or of the ends of the row. So the bandwidth differs from the CPU's, which is measured between the outermost bins that do belong, and is never below two bins. A peak in the first or the last bin of the plane would make the kernel read outside the labels; with a neighbourhood of at least 2 there is none.", "quantifier": "all planes, noise estimates, thresholds, flag counts, thread counts and interleavings", "why_tests_cant": "All interleavings of a parallel program; all shapes of components.", "anchors": ["bliss/drift_search/kernels/connected_components_cuda.cu: collect_protohit_md_kernel, find_components_above_threshold_cuda", "bliss/core/include/core/protohit.hpp: device_protohit"]}
{"id": "C85", "title": "Moving arrays between devices", "statement": "Whole arrays of fewer than 2^31 elements keep their shape and every element along any sequence of moves between the CPU, pinned memory, managed memory and GPUs that the library can copy; consecutive rows of an array on a GPU arrive at the host unchanged. In general as many consecutive cells are copied as the view has elements, from the first cell of the buffer, or of the view when moving from a GPU to the host: so a slice of a host array arrives as the beginning of the array, and columns of a GPU array are wrong from the second row on. A move to plain CUDA memory of another GPU, or from managed memory, copies nothing and leaves every element uninitialised; an array in pinned memory cannot be moved; arrays of 2^31 elements or more are moved partly or not at all. Without CUDA, and for invalid devices, the move throws. An operation on two arrays runs on their common device and throws if they have none, except that abs of one argument always runs on the CPU. The value of a one-element slice is read from the first cell of the whole array.", "quantifier": "all shapes, data, slices, devices and sequences of moves", "why_tests_cant": "All shapes and windows; several GPUs; sizes beyond 2^31; uninitialised results vary.", "anchors": ["bland/bland/ops/ops.cpp: to, abs", "bland/bland/ops/device_dispatch.hpp: device_dispatch", "bland/bland/ndarray.cpp: scalarize", "bland/bland/config.cpp: check_is_valid_cuda_device", "bland/bland/bland_tensor_internals.cpp"]}
{"id": "C86", "title": "Arrays owned here and arrays borrowed from other frameworks", "statement": "In every program that creates, copies, assigns and drops arrays, a variable whose value stems from an array created here reads that array's elements, as long as the variable lives; a buffer is freed exactly when the last such variable is gone, and never twice. A variable whose value stems from an array imported through DLPack reads the imported elements, through copies too, exactly as long as the other framework keeps its tensor and no assignment happened on the way; after an assignment, or when the tensor is released, reading it is undefined, as it is after converting a deferred array that holds it or writing it to a file. The byte offset of an imported tensor is ignored.", "quantifier": "all programs of creations, imports, copies, assignments, drops and releases, all variables and indices", "why_tests_cant": "All histories of sharing; dangling pointers and nulls may go unnoticed in a test.", "anchors": ["bland/bland/bland_tensor_internals.cpp: blandDLTensor(DLManagedTensor), copy constructor, operator=", "bland/bland/ndarray_deferred.cpp: operator ndarray", "bland/bland/ops/ops.cpp: write_to_file", "bland/python/pybland.hpp: nb_to_bland"]}
{"id": "C87", "title": "Reading dat files", "statement": "Reading a dat file that the library wrote gives a scan with the start time of the original and its sample time to 1e-6 s, provided the C library reads decimals to the nearest double. The channel width comes back in Hz where the scan held MHz: it is a million times too large. No hit is returned: no row that the writer can produce is recognised as a hit, because the reader expects one column less, and recognised rows are dropped too. So 'what was written can be read back' is false.", "quantifier": "all file and source names, start times, sample times, channel widths, coordinates and lists of hits", "why_tests_cant": "All texts that can be written, matched against regular expressions; all doubles.", "anchors": ["bliss/file_types/dat_file.cpp: read_scan_hits_from_dat_file, write_scan_hits_to_dat_file", "bliss/file_types/include/file_types/dat_file.hpp"]}
{"id": "C88", "title": "What a coarse channel hands out", "statement": "In every program that creates, copies and assigns coarse channels, sets their data, mask, noise, drift plane and hits, as values or as callables, changes their devices, pushes and reads them, each read answers with what was last set on that channel, or on the channel it was copied from before that: data, mask and drift plane with flag counts arrive with the elements that were set, on the device the channel has at that moment, or the exception of moving them or of the callable comes out; a failed read loses nothing. No behaviour is undefined as long as data and mask are set before they are read or pushed; without them reading and pushing are undefined, while noise, plane and hits throw. Hits set as a search run until the search first succeeds and are then shared by every copy made in between. With whole arrays, the CPU and one GPU, no move fails. A plane is searched by the kernels of its channel's device. So 'data survive a change of device' is false with two GPUs, where the elements are lost for good, and 'a device that is accepted can search' is false for managed memory.", "quantifier": "all programs over any number of channels, all arrays, callables, devices and exceptions", "why_tests_cant": "All histories of copies that share state, and of failures in the middle of a move; uninitialised memory.", "anchors": ["bliss/core/coarse_channel.cpp: data, set_data, mask, set_mask, noise_estimate, hits, set_hits, has_hits, set_device, push_device, integrated_drift_plane, set_integrated_drift_plane", "bliss/core/frequency_drift_plane.cpp", "bliss/core/include/core/integrate_drifts_options.hpp: integrated_flags", "bland/bland/ndarray_deferred.cpp: to, operator ndarray", "bliss/drift_search/integrate_drifts.cpp", "bliss/drift_search/connected_components.cpp", "bliss/drift_search/local_maxima.cpp"]}
{"id": "C89", "title": "Element types of arithmetic and comparisons", "statement": "Sums, differences, products and quotients of arrays and scalars of float, int32, uint8 and uint32 have the element type of the left operand. Between integers every element is the exact result, modulo the range of that type; it is undefined for a zero divisor and, unless one operand is uint32, for results outside int32; beside uint32 a negative dividend or divisor counts as itself plus 2^32. Beside a float the operands are rounded to 24 bits, the result is rounded, and where the left operand is an integer array its integral part is stored if the type holds it and the operation is undefined if not. Comparisons give uint8 zeros and ones and are right for integers unless a negative number meets a uint32, and beside floats for integers up to 2^24; beyond that a strict comparison that holds is still right, and an equality or non-strict comparison that is right still holds; a NaN compares false. Logical and gives the low eight bits of the bitwise and and throws on floats. Arrays of other types throw. So 'the result is the mathematical one whenever the type can hold it' is false: int32 -4 / uint32 2 is 2147483646, 16777217 + 0.0f is 16777216, uint8 200 + 100.0f is undefined, -1 > 0u, and 1 and 2 are not both true.", "quantifier": "all element types, shapes, views, operands, broadcasts and scalars", "why_tests_cant": "All pairs of types and all values, including those at the ends of the ranges where a compiler may do anything.", "anchors": ["bland/bland/ops/cpu/arithmetic_cpu_impl.hpp", "bland/bland/ops/cpu/arithmetic_cpu.cpp", "bland/bland/ops/cpu/arithmetic_scalar_cpu.cpp", "bland/bland/ops/cpu/comparison_cpu_impl.hpp", "bland/bland/ops/cpu/comparison_cpu.cpp", "bland/bland/internal/include/internal/dispatcher.hpp"]}
{"id": "C90", "title": "Reductions of integer arrays", "statement": "Sums, means, maxima and standard deviations of int32, uint8 and uint32 arrays have the element type of the array. The maximum is exact. A sum is exact modulo the range of an unsigned type, and undefined for int32 once a partial sum, in the order the elements are visited, leaves the range. Mean and masked mean are that sum divided by the number of elements used and truncated, so they are exact (truncated) when the magnitudes add up to a value the type holds; otherwise the mean of an unsigned array need not lie between its elements: 'the mean of uint8 200 and 100 is 150' is false, it is 22. The mean is undefined when the number of elements is one more than a multiple of the range, so for a single element. The masked standard deviation is the integer root of the truncated mean square minus the square of the truncated mean if the squares add up to a value the type holds, and undefined where wrapped sums make that negative, so for two uint8 elements 16. The standard deviation without a mask is 0 for two or more elements, whatever they are, as long as they are fewer than the range and their squares fit: 'it measures the spread' is false. A mean asked into a float array is the exact sum divided in double precision, then rounded to float.", "quantifier": "all small integer types, shapes, views, axes, masks and values", "why_tests_cant": "All values at the ends of ranges and all counts, including multiples of 256; undefined conversions may pass unnoticed.", "anchors": ["bland/bland/ops/cpu/statistical_cpu.cpp: sum_impl, mean_impl, masked_mean_impl, max_impl, stddev_impl, masked_stddev_impl", "bland/bland/ops/statistical.cpp: sum, mean, masked_mean, max, stddev, masked_stddev"]}
{"id": "C91", "title": "Rounding errors of float statistics", "statement": "Let a float array of less than 2^31 elements be reduced over any axes on the CPU, and let the n elements used for a result be numbers of magnitude at most 2^126, with exact mean mu, mean magnitude a, mean square Q and population variance V. mean and masked_mean give a finite number within 2^-24*|mu| + (n+1)*2^-51*a + 2^-149 of mu; the mean of mean_stddev is within the same with n+3, that of masked_mean_stddev within the same. stddev and mean_stddev give a finite number that is not negative, and equals up to 2^-23 relatively and 2^-149 absolutely the root of a number within (n+3)*2^-50*Q + 2^-900 of V. masked_stddev and masked_mean_stddev give the same with n+2, or NaN; NaN only if V is below that bound. It does occur: 65 equal elements can have the masked standard deviation NaN, so 'a standard deviation of finite data is a number' is false. sum accumulates in float: it is within n*2^-23*S of the exact sum if n is at most 2^23 and the magnitudes add up to S < 2^127; the sum of n ones is min(n, 2^24), so 'sums of more elements are accurate' is false.", "quantifier": "all shapes, views, axes and masks, all elements of magnitude at most 2^126", "why_tests_cant": "All values and all orders of magnitude of the number of elements; errors of cancellation show up only for special data.", "anchors": ["bland/bland/ops/cpu/statistical_cpu.cpp: mean_impl, masked_mean_impl, stddev_impl, masked_stddev_impl, mean_stddev, masked_mean_stddev, sum_impl", "bland/bland/ops/statistical.cpp", "bliss/flaggers/sigmaclip.cpp", "bliss/estimators/noise_estimate.cpp"]}
{"id": "C92", "title": "Rounding errors of integrated drift planes", "statement": "Let all powers of a spectrum of T rows be numbers of magnitude at most 2^100 and let no track have more than 2^21 bins. On the CPU every value of the drift plane is finite and is the exact sum of the powers on its track, divided by T and by the number of desmeared channels, up to (2n+4)*2^-24 times the same average of their magnitudes, plus (3*desmeared channels + 1)*2^-150, where n is the number of bins of the track. On CUDA, in every schedule, it is the exact average of the bins met, up to (2n+4)*2^-24 times the average of their magnitudes, plus 2^-148. So for a track that lies in the band both backends give the same average up to (4n+8)*2^-24 relatively, although 'bit for bit' is false with desmearing. For powers that are not negative the errors are relative to the average itself.", "quantifier": "all spectra of bounded powers, masks, drift rates, search options, launch geometries and schedules", "why_tests_cant": "All float inputs: equality of backends cannot be tested exactly, and a tolerance chosen from a few examples proves nothing about others.", "anchors": ["bliss/drift_search/kernels/drift_integration_cpu.cpp: integrate_linear_rounded_bins_cpu", "bliss/drift_search/kernels/drift_integration_cuda.cu: integrate_linear_rounded_bins_cuda", "bliss/drift_search/integrate_drifts.cpp: integrate_drifts"]}
{"id": "C93", "title": "What the CPU search detects", "statement": "Searching one coarse channel on the CPU with connected components, where powers are not negative and at most 2^100, lines hold at most 2^21 samples, the channel at most 2^26, and the spread of the unflagged samples is resolvable in double precision: let mu and sigma be the exact mean and standard deviation of the unflagged samples, avg the exact average of the samples on a line (those outside of the band count as zero), n their number. Every line of the search grid with avg - mu >= threshold * sigma / sqrt n * (1 + 2^-10), up to an explicit rounding term of relative size (2n+4) 2^-24, has a hit at least as strong; and every hit belongs to a line with avg - mu >= threshold * sigma / sqrt n * (1 - 2^-10), down to the same rounding term. For a given floor and noise the margins are 2^-21 and 2^-22, and the reported SNR is the exact one up to 2^-21 relative plus the rounding of the average. Hence a line wholly in the band whose samples all exceed the corresponding power is found, a channel whose samples all stay below it has no hits, and 'a line is found when all its samples in the band are strong enough' is false for lines that leave the band: with k of n samples inside it is reported only if they are n/k times as strong.", "quantifier": "All samples, flags, sizes, search grids, thresholds and noise estimates within the stated ranges, in IEEE single and double precision", "why_tests_cant": "A test searches a few synthetic signals, not every sample array, line and rounding", "anchors": ["bland/bland/ops/cpu/statistical_cpu.cpp: masked_mean_stddev", "bliss/estimators/noise_estimate.cpp: estimate_noise_power", "bliss/drift_search/integrate_drifts.cpp: integrate_drifts", "bliss/drift_search/kernels/drift_integration_cpu.cpp", "bliss/drift_search/connected_components.cpp: find_components_above_threshold", "bliss/drift_search/hit_search.cpp: hit_search"]}
{"id": "C94", "title": "How accurate the fields of a hit are", "statement": "For channels whose frequency, channel width, sampling time and start time are doubles of ordinary magnitude (2^-60 to 2^60), every hit of the CPU search reports: a drift rate within 2^-23 relative of span * channel width * 10^6 / ((T - 1) * sampling time); a frequency within 2^-51 * (|fch1| + |centre * channel width|) of fch1 + centre * channel width, where centre is the middle, rounded down, of the channels that the component covers at the drift of its peak (not the channel of the peak); a bandwidth within 2^-23 relative of the distance of the outermost of these channels (so a component one channel wide has bandwidth zero); a start time within 2^-49 and a duration within 2^-52 relative of 86400 * tstart and T * tsamp. Lines of different spans below 2^22 have different drift rates in the order of their spans (reversed for negative channel widths); different channels have different frequencies in their order where the band is less than 2^48 channels away from zero frequency, and there the frequency that the hit implies for the last spectrum is within 5/8 of a channel of that of the channel 'span' further.", "quantifier": "All channels, meta data, search grids and components within the stated ranges, in IEEE single and double precision", "why_tests_cant": "A test compares a few frequencies and rates with a tolerance, not every channel, span and rounding", "anchors": ["bliss/drift_search/integrate_drifts.cpp: compute_drifts", "bliss/drift_search/hit_search.cpp: hit_search"]}
{"id": "C95", "title": "What the CUDA search detects", "statement": "Searching one coarse channel on CUDA with connected components and neighbour distance L >= 2, where powers are not negative and at most 2^100, lines hold at most 2^21 samples, floor, noise and threshold are given, and the table of protohits has room for all local maxima: for every launch size, schedule and start contents of the device buffers the search completes. It reports only bins that are at least L drifts away from both ends of the drift grid (drift index L to D - L) and as many channels away from the band edges (channel L - 1 to N - L), each once, and only where avg - floor >= threshold * noise / sqrt(T * w) * (1 - 2^-22), down to an explicit rounding term, with avg the exact average of the samples that the line meets inside the band, T the number of spectra and w the desmeared width. Conversely each such bin with avg - floor >= threshold * noise / sqrt(T * w) * (1 + 2^-21), up to rounding, is accounted for by a reported bin at least as strong, unless a bin nearer to the border is stronger. So 'CUDA finds what the CPU finds' is false: with fewer than 2L drift rates CUDA reports nothing, whatever the samples, and lines near the border are missed. A line that leaves the band is judged by the few samples left, against the noise of T * w samples. The ratio it computes is the exact one up to 2^-21 relative plus the rounding of the average.", "quantifier": "All samples, masks, sizes, search grids, thresholds and noise estimates within the stated ranges, all launch geometries and interleavings, in IEEE single and double precision", "why_tests_cant": "A test searches a few synthetic signals under the schedules the device happens to choose", "anchors": ["bliss/drift_search/integrate_drifts.cpp: integrate_drifts", "bliss/drift_search/kernels/drift_integration_cuda.cu: integrate_linear_rounded_bins_cuda", "bliss/drift_search/protohit_search.cpp: protohit_search", "bliss/drift_search/kernels/connected_components_cuda.cu: find_components_above_threshold_cuda"]}
{"id": "C96", "title": "Variances of float arrays", "statement": "Let a float array of less than 2^31 elements be reduced over any axes on the CPU with var or masked_var, let the n elements used for a result be numbers of magnitude at most 2^126 with mean square Q <= 2^125 and population variance V, and let B = (n+k)*2^-50*Q + 2^-900 with k = 3 (k = 2 with a mask). var returns a finite number that is not negative and lies within 2^-21*V + 2*B + 2^-149 of V. masked_var returns the same, or NaN if V < B (so 'the masked variance of equal elements is about zero' is false). Where V >= 2^129 + B the result is +infinity, although the standard deviation is a number. If an output array is passed, it receives the standard deviations and the variances are returned in another array (so 'var writes the variances to its output array' is false).", "quantifier": "all shapes, views, axes and masks, all elements of magnitude at most 2^126", "why_tests_cant": "All values and all orders of magnitude of the number of elements; cancellation and overflow show up only for special data.", "anchors": ["bland/bland/ops/statistical.cpp: var, masked_var", "bland/bland/ops/ops.cpp: square", "bland/bland/ops/cpu/arithmetic_cpu_impl.hpp: elementwise_square_op", "bland/bland/ops/cpu/statistical_cpu.cpp: stddev_impl, masked_stddev_impl"]}
{"id": "C97", "title": "What searches for local maxima detect", "statement": "Searching one coarse channel for local maxima, under the conditions of 'What the CUDA search detects' on sizes, powers, floor, noise and threshold. On CUDA with neighbour distance L >= 2: if at most D*N/L^2 bins are peaks, the search completes for every launch size, schedule and start contents of the device buffers, writes no memory out of bounds, and its hits are exactly the peaks, each once: bins at least L drifts and channels away from the borders (drift index L to D - L, channel L - 1 to N - L), above the threshold, with no greater signal to noise ratio in the half-open diamond of radius L around them. So a line whose exact average stands out of the floor by the threshold and whose exact ratio exceeds those around it, up to explicit rounding terms, has a hit at its own drift rate and channel, and every hit is a line above the threshold of which no line around is stronger, up to the same terms. If more bins are peaks, the search never completes properly and some schedule writes past the end of the result buffer; a channel of equal samples above the threshold is such a case, because ties count as peaks (so 'no input breaks the search' is false). On the CPU with distance 0 or less and N < 2^30 every line that stands out by the threshold has a hit at least as strong at the same drift rate, hits are distinct and each is above the threshold; with distance 1 or more the CPU finds nothing where CUDA finds the line (so 'backends find the same' is false).", "quantifier": "All samples, masks, sizes, search grids, thresholds and noise estimates within the stated ranges, all launch geometries and interleavings, in IEEE single and double precision", "why_tests_cant": "A test searches a few synthetic signals under the schedules the device happens to choose; the overflow needs crowded or tied bins", "anchors": ["bliss/drift_search/integrate_drifts.cpp: integrate_drifts", "bliss/drift_search/kernels/drift_integration_cuda.cu: integrate_linear_rounded_bins_cuda", "bliss/drift_search/protohit_search.cpp: protohit_search", "bliss/drift_search/kernels/local_maxima_cuda.cu: find_local_maxima_above_threshold_cuda", "bliss/drift_search/kernels/local_maxima_cpu.cpp", "bliss/drift_search/hit_search.cpp: hit_search"]}
{"id": "C98", "title": "Layout of hit files and hit files of other programs", "statement": "In a hit file written by this program hit number j occupies bytes 104*j to 104*j+103: a Cap'n Proto message of one segment whose fields are little-endian IEEE numbers and two's complement integers at fixed places (frequency at 32, channel index at 40, drift rate at 48, SNR at 56, drift index at 80, and so on). The coarse channel and the beam are written as zero whatever the hit holds, the power is written both as power and as incoherent power, and the number of integrations both as drift steps and as time steps (so 'a reader of the file sees the coarse channel' is false). Conversely any file of such records, whoever wrote it and whatever its data and its filterbank pointers, is read in order, one hit per record, each field from its place; steps come from the time steps, power from the power; drift steps, incoherent power, coarse channel and beam are ignored. If the width of a record is NaN, infinite or beyond the 64-bit integers the read is undefined behaviour.", "quantifier": "all lists of hits of ordinary width, all files made of records of that form, all bytes in them", "why_tests_cant": "All field values, including NaN and wrapped integers, and files the program itself never writes", "anchors": ["bliss/file_types/cpnp_files.cpp: write_hits_to_capnp_file, read_hits_from_capnp_file", "bliss/file_types/detail/cpnp_hit_builder.cpp: bliss_hit_to_capnp_signal_message, capnp_signal_message_to_bliss_hit", "bliss/file_types/hit.capnp"]}
{"id": "C99", "title": "Arrays and numbers given from Python", "statement": "The Python module's array functions on the CPU see exactly the elements of an array of another framework: any shape of at least one axis, any strides (negative ones and broadcast ones of zero too), float32, uint8, int32 or uint32 elements. add, subtract and multiply with a Python number, less_than, greater_than and slice return a new array of the shape and, but for comparisons (which give uint8 flags), of the type of the array. Comparisons with an int in (-2^24, 255] are right for every integer element, with larger ones below 2^32 only for elements that are not negative (with 256 <= k < 2^31 every negative int32 counts as larger than k, so 'less_than(a, 300) holds for -1' is false), with other ints up to 2^53 and with floats up to 2^100 they compare values rounded to binary32: what they report holds, but two numbers that round to the same are not ordered; NaN is never ordered. Sums, differences and products of integer arrays and ints of the overload's range are exact modulo the range of the array's type, undefined if they leave int32 unless one operand is uint32 (for multiply an int of 256 or more is); otherwise operands and result are rounded to binary32 (so 'add(a, 3000000000) is exact' is false). Division by a number and ints too large for a double are TypeErrors, arrays of other types, such as numpy's default float64, are refused with an exception. A slice holds the elements start, start+stride, ... below min(stop, size), (min(stop,size)-start)/stride of them rounded down.", "quantifier": "all arrays of the four element types with fewer than 2^31 elements, all strides, all ints up to 2^53 and floats up to 2^100, all slices of positive stride inside the array", "why_tests_cant": "Which overload a number selects depends on its value and on the order of the definitions; wrong signs and rounding show only for special pairs of values and types", "anchors": ["bland/python/pybland.hpp: nb_to_bland, add, subtract, multiply, divide, less_than, greater_than, slice"]}
{"id": "C100", "title": "Accuracy of spectral kurtosis and its flags", "statement": "For a coarse channel of 2 <= M <= 2^16 spectra, sampling time and channel width of any usual magnitude and 0 <= d <= 2^20, estimate_spectral_kurtosis and flag_spectral_kurtosis take N = the nearest integer to |tsamp*foff|*10^6 (up to a relative error of 2^-50 before rounding) samples per spectrum. For each frequency channel whose samples are powers (not negative, at most 2^40, together at least 2^-40) the single precision estimate is finite and within (M + 4)*2^-22*(SK + K) of the exact SK = (M*S2/S1^2 - 1)*K, K = (M*N*d + 1)/(M - 1). So with finite thresholds a channel is flagged low (2) if SK is below the lower threshold by more than that margin and only if it is below it up to the margin, and high (4) likewise above the upper threshold; the flags are added to the mask of every spectrum modulo 256. A channel of equal powers has SK = 0, so a lower threshold above (M + 4)*2^-22*K catches it; its estimate can be negative (so 'the estimate is never negative' is false). A channel with a NaN or infinite sample, a channel of zeros, and every channel if there is a single spectrum is never flagged, whatever the thresholds.", "quantifier": "all samples, masks, sizes, resolutions, shape parameters and finite thresholds within the stated ranges, in IEEE single precision", "why_tests_cant": "Tests compare a few simulated channels with a tolerance; the error bound needs all values and all lengths", "anchors": ["bliss/estimators/spectral_kurtosis.cpp: estimate_spectral_kurtosis", "bliss/flaggers/spectral_kurtosis.cpp: flag_spectral_kurtosis", "bland/bland/ops/cpu/statistical_cpu.cpp: sum"]}
{"id": "C101", "title": "What the default magnitude flags catch", "statement": "flag_magnitude(coarse_channel) without a threshold, on a channel of n < 2^31 finite samples of magnitude at most 2^120 and a mask of bytes, never fails; with mu and sigma the exact mean and standard deviation of all samples and rms the root of their mean square, every sample above mu + 10*sigma by more than (2^-20*sqrt(n + 3) + 2^-17)*rms + 2^-139 whose magnitude bit (16) is clear gets exactly that bit set, and every sample below mu + 10*sigma by at least as much keeps its mask. No sample of a channel is further than sqrt(n - 1)*sigma from its mean, so in a channel of at most 100 samples nothing is flagged however bright (provided sigma is at least 2^-11*rms + 2^-130): 'a sample far brighter than all others is flagged' is false. In a channel of at least 128 samples, one sample above all the others, which are equal, is flagged and the others are not (provided the tolerance is at most sigma).", "quantifier": "all channels, masks and samples within the stated ranges, in IEEE arithmetic as computed", "why_tests_cant": "Tests flag a few arrays; the threshold depends on all samples, and the smallest size that can be flagged shows only by a general argument", "anchors": ["bliss/flaggers/magnitude.cpp: flag_magnitude(coarse_channel)", "bland/bland/ops/cpu/statistical_cpu.cpp: mean, stddev"]}
{"id": "C102", "title": "Accuracy of sums and means on a GPU", "statement": "For an unsliced float32 array of at most four dimensions reduced to at most 1024 outputs of fewer than 2^31 elements each, every execution of the GPU's sum, mean, masked sum and masked mean ends, and for each output whose used elements are finite with magnitudes adding up to at most 2^124 the result is finite and within 2^-19 times the sum (for means: the mean) of magnitudes of the exact value, means with a further 2^-140 for underflow; masked means need one unmasked element. The bound does not grow with the number of elements. 'A sum is the same on either device' is false: the CPU's sum of n ones is min(n, 2^24), the GPU's is within 2^-19*n of n.", "quantifier": "all arrays, masks, shapes and axes within the stated ranges, all interleavings of threads and blocks, in IEEE single precision", "why_tests_cant": "The effect of compensated summation shows over millions of elements and depends on their order; tests compare small arrays with a tolerance", "anchors": ["bland/bland/ops/cuda/statistical_cuda.cu: kahan, reduction_impl", "bland/bland/ops/cpu/statistical_cpu.cpp: sum"]}
{"id": "C103", "title": "Accuracy of variances and deviations on a GPU", "statement": "For an unsliced float32 array of at most four dimensions reduced to at most 1024 outputs of fewer than 2^31 elements each, every execution of the GPU's var, stddev and mean_stddev, with or without a mask, ends, and for each output whose used elements are finite with squares adding up to at most 2^122 (masked: at least one unmasked) the variance is a finite number, not negative, within 2^-17 times the mean square plus 2^-135 of the exact variance; the square of the deviation likewise; the mean is as accurate as C102's. This holds whether or not the compiler contracts products and differences into fused operations. In particular the deviation is never NaN there. 'Equal elements have no deviation' is false: five elements equal to 11 have a positive deviation.", "quantifier": "all arrays, masks, shapes and axes within the stated ranges, all interleavings of threads and blocks, both choices of contraction at both places, in IEEE single precision", "why_tests_cant": "Cancellation in the one-pass variance depends on all elements, their order and the compiler; tests compare small arrays with a tolerance", "anchors": ["bland/bland/ops/cuda/statistical_cuda.cu: kahan, reduction_impl, mean_stddev_impl"]}
{"id": "C104", "title": "What a CUDA search detects with its noise estimated on the GPU", "statement": "Let a coarse channel of T >= 2 spectra and N channels (T*N < 2^31) of powers in [0, 2^100] and its mask be on a GPU, with squares of the unflagged samples adding up to at most 2^122, and let mu and sigma be the exact mean and standard deviation of the unflagged samples (there is at least one) and e <= 1/4 such that 2^-17 of their mean square plus 2^-135 is at most e*sigma^2. Every execution of masked_mean_stddev ends with a noise floor within E = 2^-19*mu + 2^-140 of mu and a noise power within e*sigma of sigma. With these the search for connected components (finite threshold thr >= 2^-125, neighbour distance at least 2, lines of at most 2^21 samples, and room in the result table for every reportable bin that may pass) completes for every launch size and schedule; every protohit is reported once, lies in the reportable region and has an exact average on its line above mu + thr*(1 - e)(1 - 2^-22)*sigma/sqrt(samples), but for E and the rounding of the average; and if no bin outside of the region comes that close to the threshold, every line in the region whose exact average is above mu + thr*(1 + e)(1 + 2^-21)*sigma/sqrt(samples) by E and the rounding of the average is accounted for by a protohit whose ratio is not smaller. 'Samples that vary have noise' is false on a GPU: for the samples 4096, 4097 the noise power is exactly 0, and then every average above the floor is infinitely strong.", "quantifier": "all samples, masks, sizes, search grids and thresholds within the stated ranges, all launch geometries and interleavings of both kernels, both choices of contraction, in IEEE single precision", "why_tests_cant": "The estimate and the search interact through rounding; a test tries a few synthetic channels under the schedules the device happens to choose", "anchors": ["bliss/estimators/noise_estimate.cpp: noise_power_estimate_stddev", "bland/bland/ops/cuda/statistical_cuda.cu: mean_stddev_impl", "bliss/drift_search/integrate_drifts.cpp: integrate_drifts", "bliss/drift_search/protohit_search.cpp: protohit_search", "bliss/drift_search/kernels/connected_components_cuda.cu: find_components_above_threshold_cuda"]}
{"id": "C105", "title": "Accuracy of GPU sums and means with any number of outputs", "statement": "For an unsliced float32 array of at most four dimensions reduced, to however many outputs, by fewer than 2^31 elements each, every execution of the GPU's sum, mean, masked sum and masked mean ends; if the elements used anywhere in the array are finite and of magnitude at most M, with the reduced size n times M at most 2^123, then every sum is finite and within 2^-19 times the sum of its magnitudes plus 2^-20*n*M of the exact sum, and every mean of m used elements (m >= 1 when masked) within 2^-19 times the mean magnitude plus 2^-20*n*M/m plus 2^-140 of the exact mean. 'The error of an output depends on its own elements' is false beyond 1024 outputs: an output of zeros 1024 further on receives a correction of the numbers before it.", "quantifier": "all arrays, masks, shapes and axes within the stated ranges, all interleavings of threads and blocks, in IEEE single precision", "why_tests_cant": "Corrections carried from one output to another need more than 1024 outputs and strongly unequal rows; a tolerance hides them", "anchors": ["bland/bland/ops/cuda/statistical_cuda.cu: kahan, reduction_impl"]}
{"id": "C106", "title": "Spectral kurtosis on a GPU", "statement": "Let T spectra (2 to 2^16) of C channels (T*C < 2^31) of powers in [0, X], X <= 2^40, be on a GPU in an unsliced array, with resolutions and shape parameter as in C100. Every execution of estimate_spectral_kurtosis and flag_spectral_kurtosis ends. For every channel whose powers add up to at least 2^-40 and whose mean is at least X/k for an integer k <= 64, the estimate is finite and within (k^2 + 2)*2^-18*(SK + K) of the published estimate SK with scale K, for the N nearest to tsamp*|foff|*10^6; the channel is flagged low (high) where SK is below the lower (above the upper) threshold by more than that margin and not where it is beyond it by more than the margin, and its flags are added in all spectra. The margin does not grow with T. 'A channel's estimate depends on its own samples up to rounding' is false: next to a burst 1024 channels away the estimate of the samples 1, 2 and 3 is negative on a GPU, positive on the CPU.", "quantifier": "all powers, masks, sizes, resolutions, thresholds and shape parameters within the stated ranges, all interleavings of threads and blocks of both sums, in IEEE single precision", "why_tests_cant": "The error depends on the strongest sample of the whole coarse channel and on how outputs share threads; a test compares a few synthetic channels with a tolerance", "anchors": ["bliss/estimators/spectral_kurtosis.cpp: estimate_spectral_kurtosis", "bliss/flaggers/spectral_kurtosis.cpp: flag_spectral_kurtosis", "bland/bland/ops/cuda/statistical_cuda.cu: sum, reduction_impl"]}
{"id": "C107", "title": "Sigma clipping on a GPU", "statement": "'Sigma clipping works on a GPU' is false for channels: flag_sigmaclip with at least one round is undefined behaviour on every array of two to four dimensions (fewer than 2^31 elements), so on every coarse channel, whatever the samples, bounds and mask; without a round it returns and leaves the mask as it was. On a one-dimensional array of n < 2^31 samples every execution ends with flags 0, 32 or 64 after at most max_iter rounds, at least one if any is asked for, and fewer only if the last round changed neither mean nor deviation by 1e-6. Each round takes mean and deviation of the samples left by its predecessor and judges all samples, also those flagged before. If the samples left are finite with squares adding up to at most 2^122 and the bounds lie 0 to 2^20 deviations out, the round flags every sample beyond mu - low*sigma or mu + high*sigma of the samples left by more than a margin, and no sample inside them by as much; the margin for k deviations is (1 + k)*(2^-18*rms + 2^-88) + k*v/max(sigma, sqrt(v)), where v is C103's bound of the error of the variance. 'Clipping repeats until the flags settle, whatever the units of the samples' is false: if no sample exceeds 2^-22 in magnitude the first round is the last unless it flags every sample.", "quantifier": "all samples, sizes, masks, bounds and numbers of rounds within the stated ranges, all interleavings of threads and blocks in every round, both choices of contraction, in IEEE single precision", "why_tests_cant": "Whether a read past a shape does harm depends on the allocator; rounds depend on the schedule and on rounding, and no test runs the clipper on a device", "anchors": ["bliss/flaggers/sigmaclip.cpp: flag_sigmaclip", "bland/bland/ops/cuda/statistical_cuda.cu: mean_stddev_wrapper, mean_stddev_impl", "bland/bland/internal/include/internal/shape_helpers.cpp: compute_broadcast_shape", "bland/bland/ops/cuda/comparison_cuda.cu"]}
{"id": "C108", "title": "What a CUDA search for local maxima detects with its noise estimated on the GPU", "statement": "For a coarse channel, mask, search grid and noise estimate as in C104 (neighbour distance L >= 2, grid small enough for 32-bit indices), call strength of a line sqrt(samples on the line)*(average power met in the band - mu). The search for local maxima with the floor and noise that masked_mean_stddev left on the GPU, under every schedule of both kernels: completes and never breaks if at most (drifts*channels)/L^2 reportable lines could exceed the threshold given the exact mu and sigma up to e and rounding; reports every line that exceeds it by the margins of C104 and whose strength exceeds that of every other line in the half-open diamond around it by the blur of both; reports no bin twice, no line that could not exceed the threshold, and none beside a line stronger by more than both blurs; and gives each hit a signal to noise ratio within (4/3)*(e*|strength| + blur)/sigma of strength/sigma. The blur is sqrt(samples)*(2^-21*|average - mu| + twice the rounding of the average + 2*(2^-19*mu + 2^-140)) + 2^-149*sigma; ratios must stay below 2^119.", "quantifier": "all samples, masks, sizes, search grids and thresholds within the stated ranges, all launch geometries and interleavings of both kernels, both choices of contraction, in IEEE single precision", "why_tests_cant": "Which of two nearly equal lines wins depends on rounding in the estimate and in the search; a test tries a few synthetic channels under the schedules the device happens to choose", "anchors": ["bliss/estimators/noise_estimate.cpp: noise_power_estimate_stddev", "bland/bland/ops/cuda/statistical_cuda.cu: mean_stddev_impl", "bliss/drift_search/integrate_drifts.cpp: integrate_drifts", "bliss/drift_search/protohit_search.cpp: protohit_search", "bliss/drift_search/kernels/local_maxima_cuda.cu"]}
{"id": "C109", "title": "Default magnitude flags on a GPU", "statement": "Let a coarse channel of n < 2^31 finite samples (one to four dimensions, unsliced) whose squares add up to at most 2^122, and its mask of bytes, be on a GPU. Every execution of flag_magnitude(coarse_channel) without a threshold ends and never fails. With mu, sigma and rms the exact mean, standard deviation and root mean square of all samples and v = 2^-17*rms^2 + 2^-135, let E = 11*(2^-18*rms + 2^-88) + 10*v/max(sigma, sqrt(v)): every sample above mu + 10*sigma + E whose magnitude bit (16) is clear gets exactly that bit added, and every sample at or below mu + 10*sigma - E keeps its flags, whether or not the compiler contracts. 'An outlier is flagged, whatever the channel' is false: a channel of at most 100 samples whose sigma is at least rms/16 + 2^-60 never gets a flag; among 128 samples or more a lone sample above equal others is flagged, and only it, if E <= sigma.", "quantifier": "all samples, masks and sizes within the stated ranges, all interleavings of threads and blocks of both kernels, both choices of contraction, in IEEE single precision", "why_tests_cant": "The threshold depends on all samples, on rounding and on the schedule of two kernels; no test flags magnitudes on a device", "anchors": ["bliss/flaggers/magnitude.cpp: flag_magnitude(coarse_channel)", "bland/bland/ops/cuda/statistical_cuda.cu: mean, stddev, reduction_impl", "bland/bland/ndarray.cpp: scalarize"]}
{"id": "C110", "title": "Equalizing by a generated channelizer response", "statement": "Let bliss_generate_channelizer_response be given an even number of fine channels per coarse channel, 2 to 2^24 coarse channels and a span of all channels below 2^31 whose centre index is exact (the defaults are such), let the transform return, however rounded, finite parts of magnitude at most 2^40, and let a float of room lie behind the spectrum (C81). The program then writes a file of four bytes per fine channel whose values are either all NaN or all finite in [0, 1] with at least one exactly 1. equalize_passband_filter with that file on a channel of T spectra of as many bins (bins different from T) divides the samples of bin c by the c-th value: a finite nonnegative sample stays as it is where the response is 1, becomes no smaller and never NaN where it is positive, and is not a finite number where it is 0; all samples become NaN if the response is NaN. 'A response of another resolution is refused by equalize_passband_filter' is false: the call returns and reading the data later throws invalid_argument, or is undefined behaviour if the file holds one float; a file ending inside a float makes the call itself undefined behaviour.", "quantifier": "all options, transforms, filter designs, samples and sizes within the stated ranges, in IEEE single precision", "why_tests_cant": "Rounding of squares, sums and quotients and the size of the response depend on the options; tests do not run the program and equalize with responses made by hand", "anchors": ["bliss/bliss_generate_channelizer_response.cpp: main", "bliss/preprocess/passband_static_equalize.cpp: gen_coarse_channel_response, equalize_passband_filter", "bland/bland/ops/cpu/ops_cpu.cpp: write_to_file, read_from_file"]}
{"id": "C111", "title": "Scaling and equalizing when the words behind a shape can be read", "statement": "C69 shows that normalize always, and equalization by a response of one channel or of as many channels as spectra, read past the end of a shape, which the language leaves undefined. If such a read returns any word whatever (and has no other effect): every element-wise CPU operation with an array of one element on its right gives the operation's result at every element, whatever the words are; operations that do not read past a shape do not depend on them. normalize of T x C finite nonnegative samples (T*C < 2^31) therefore divides, in single precision, by the largest sample: values in [0, 1], exactly 1 at a largest sample, if that is positive, and nothing but NaN if all samples are 0. equalize_passband_filter divides bin c by the c-th value of the response whenever the bins differ in number from the spectra or are one. 'It does so for any number of bins' is false even so: with as many bins as spectra, at least 2, the samples are right if the first word behind the response's shape is 1 or that number, and for every other word the call reads outside the response.", "quantifier": "all samples, sizes, layouts of the data, and all contents of memory behind the shapes", "why_tests_cant": "What lies behind a vector depends on the allocator and on earlier calls, so a test passes or fails by accident", "anchors": ["bland/bland/internal/include/internal/shape_helpers.cpp: compute_broadcast_shape", "bliss/preprocess/normalize.cpp: normalize", "bliss/preprocess/passband_static_equalize.cpp: equalize_passband_filter", "bland/bland/ops/cpu/elementwise_binary_op.hpp: elementwise_binary_op"]}
{"id": "C112", "title": "bliss_find_hits on the CPU", "statement": "'bliss_find_hits -d cpu reports the hits of its inputs' is false: for all inputs of which the first scan has at least one coarse channel, all options, with and without a response file, and whatever roll-off, kurtosis, noise estimation, integration, search and filtering do, the program writes no file, changes none, prints no hit and returns normally, unless an earlier step is undefined; so an existing output keeps the hits of an earlier run. The reason is that flag_sigmaclip, which the program always registers, raises a runtime error on every channel of floats on the CPU (C51) while the channel is read, where scan.hits() does not catch it (C67). If the samples of the first channel can be read and are finite and nonnegative, and roll-off and kurtosis succeed, the outcome is that exception whatever lies behind the shapes read by normalize (C111). On another device the same program writes the hits.", "quantifier": "all inputs, options, file systems, samples, sizes, contents of memory behind shapes, and all behaviours of the other steps", "why_tests_cant": "No test runs the program; the steps work when tested alone, and the failure ends in a message and a normal return", "anchors": ["bliss/bliss_find_hits.cpp: main", "bliss/flaggers/sigmaclip.cpp: flag_sigmaclip", "bliss/core/scan.cpp: hits, read_coarse_channel", "bliss/preprocess/normalize.cpp: normalize"]}
{"id": "C113", "title": "Sigma clipping of channels on a GPU when the words behind a shape can be read", "statement": "C107 shows that flag_sigmaclip of a channel on a GPU reads past the end of a shape in its first round. If such a read returns any word whatever (and has no other effect), the words do not matter: the kernel that compares the samples, of one to four dimensions and fewer than 2^31 in number, with the bound, an array of one element, gives every comparison under every schedule; executions of flag_sigmaclip(coarse_channel, max_iter, low, high) exist, and each ends and gives the old mask plus 32 times the number of bounds (0, 1, or 2 if crossed) that a sample violated in the last round, as bytes. Each round takes mean and deviation of the samples its predecessor left, starting from all, and judges all samples anew; there are at most max_iter rounds, at least one if any is asked for, and fewer only if the last changed mean and deviation by less than 1e-6. With max_iter 1, an empty mask and squares that add up to at most 2^122, a sample farther from the exact mean than low or high exact deviations plus C107's margin is flagged and one nearer than that minus the margin is not.", "quantifier": "all samples, masks, bounds, sizes, numbers of rounds, contents of memory behind the shapes, all interleavings of threads and blocks, both choices of contraction, in IEEE single precision", "why_tests_cant": "What lies behind a vector depends on the allocator; the rounds depend on rounding and on the schedule of the reduction; no test clips a channel on a device", "anchors": ["bliss/flaggers/sigmaclip.cpp: flag_sigmaclip", "bland/bland/ops/cuda/elementwise_binary_op_cuda.cuh: elementwise_binary_op_impl_wrapper_cuda", "bland/bland/ops/cuda/comparison_cuda.cu", "bland/bland/internal/include/internal/shape_helpers.cpp: compute_broadcast_shape", "bland/bland/ops/cuda/statistical_cuda.cu: masked_mean_stddev"]}
{"id": "C114", "title": "flag_hot_pixels", "statement": "'flag_hot_pixels returns a uint8 mask with 1s at flagged entries' (as its header says) is false: for every float array of finite samples of magnitude at most 2^120 with fewer than 2^31 elements, sliced or not, on the CPU, the call computes a threshold without failing and returns bytes of the array's shape that are whatever the newly allocated memory held. So for any samples and any bytes wanted there are contents of memory for which the call returns exactly those bytes, and two arrays of one shape get the same bytes from the same memory.", "quantifier": "all samples, shapes, layouts and contents of memory", "why_tests_cant": "Fresh memory is often zero, so a test on clean data passes; no test calls the function", "anchors": ["bliss/rfi/rfi.cpp: flag_hot_pixels", "bliss/rfi/include/rfi/rfi.hpp: flag_hot_pixels", "bland/bland/ndarray.cpp: ndarray::ndarray"]}
{"id": "C115", "title": "Scaling by the largest sample on a GPU", "statement": "Let a channel of finite nonnegative samples (one to four dimensions, unsliced, fewer than 2^31) be on a GPU, and let reads past the end of a shape return any word whatever (C111; strictly they are undefined). normalize then ends under every schedule of its two kernels and never fails: every sample is divided, rounded to single precision, by one of the samples that no sample exceeds. If that is positive all results are finite, lie in [0, 1] and are exactly 1 where the sample equals it; if all samples are 0 all results are NaN.", "quantifier": "all samples, sizes and dimensions within the stated ranges, all interleavings of threads and blocks of both kernels, all contents of uninitialised memory, in IEEE single precision", "why_tests_cant": "The maximum is found by races of partial maxima over blocks; no test runs normalize on a device", "anchors": ["bliss/preprocess/normalize.cpp: normalize", "bland/bland/ops/cuda/statistical_cuda.cu: comparison_reduction_impl", "bland/bland/ops/cuda/elementwise_binary_op_cuda.cuh: elementwise_binary_op_impl_wrapper_cuda"]}
{"id": "C116", "title": "Normalized samples do not depend on gain, device or schedule", "statement": "Let two coarse channels of finite nonnegative samples (T spectra of C channels, T*C < 2^31, unsliced) differ only by a positive factor that every sample was multiplied by exactly, such as a power of two without overflow or underflow. normalize then returns the same numbers for both, bit for bit, on the CPU or on a GPU, one on the one and one on the other, under every schedule of the kernels and whatever uninitialised memory holds and lies behind the shapes that are read too far (C111). In particular (factor 1) the CPU and the GPU agree and the GPU's result is deterministic. 'The gain never matters' is false: a factor of 3, rounded for each sample, changes the normalized samples of 8388607, 8388608.", "quantifier": "all channels, all positive real factors, all pairs of devices, all schedules, all contents of uninitialised memory, in IEEE single precision", "why_tests_cant": "A test compares one channel on one device; that no gain, schedule or device changes a bit is a statement about pairs of runs", "anchors": ["bliss/preprocess/normalize.cpp: normalize", "bland/bland/ops/cuda/statistical_cuda.cu: comparison_reduction_impl", "bland/bland/ops/cpu/statistical_cpu.cpp"]}
{"id": "C117", "title": "Preparing a channel on a GPU never fails", "statement": "On a GPU, when words behind a shape can be read (C111), what bliss_find_hits does to a channel's samples before it estimates the noise - normalize, then flag_sigmaclip, here without a response file and with any mask left by the flaggers between them - ends under every schedule and never fails, for all finite nonnegative samples (one to four dimensions, unsliced, fewer than 2^31), any number of rounds and any bounds. Later steps see exactly the samples divided, in single precision, by one that no sample exceeds, and the mask with 0, 32 or 64 added modulo 256. A channel with any power needs no further assumption for one round to flag every scaled sample clearly outside mean +- bound*deviation of the scaled samples and none clearly inside (C113's margins), however large or small the samples were. If every sample is multiplied exactly by the same positive factor, the possible results - scaled samples and mask together - are the same. 'Dead channels are flagged' is false: if all samples are 0, all scaled samples are NaN and the mask stays as it is.", "quantifier": "all samples, masks, sizes and dimensions within the stated ranges, all numbers of rounds and bounds, all schedules of all kernels, all contents of uninitialised memory", "why_tests_cant": "That the scaling keeps every later statistic in range is a statement about all channels; no test runs the two steps on a device", "anchors": ["bliss/bliss_find_hits.cpp", "bliss/preprocess/normalize.cpp: normalize", "bliss/flaggers/sigmaclip.cpp: flag_sigmaclip"]}
