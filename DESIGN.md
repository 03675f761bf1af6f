# Formal model of OpenChemistry/stempy in Rocq (Coq 8.16.1)

## 1. Method

The model is a set of total, computable Gallina functions that follow the C++
(and Python) code function by function.  Each definition cites the file and
lines it models.  Conventions:

* C++ integers are `Z`; every place where the code computes in `uint16_t`,
  `uint32_t`, `uint64_t` the wrap (`u16`, `u32`, `u64`) is explicit; signed
  `int` arithmetic that can overflow is undefined behaviour.
* Results are `outcome A := Ok a | Throw msg | UB why`: an exception the code
  raises is `Throw`, undefined behaviour (out-of-bounds access, division by
  zero, null dereference, signed overflow) is `UB`.  A theorem that concludes
  `= Ok ...` therefore also states memory safety.
* Arrays are lists with bounds-checked `rd`/`wr` (out of range = `UB`).
* Loops are structural recursion over a counter (`for_loop`) or over the input
  list; nothing is bounded by a constant.  Loops without a syntactic bound take
  fuel, with a distinct out-of-fuel outcome, and a theorem that some fuel
  suffices.
* Threads are transition systems: a state, a per-thread `step`, and an
  execution is any sequence of thread choices.  Properties are invariants
  proved by induction over executions.
* Each area is split: `<Area>Model.v` (definitions only), `<Area>Proofs.v`
  (lemmas), `<Area>Props.v` (the property theorems with non-vacuity examples and
  `Print Assumptions`).  Specifications are written in `<Area>Spec.v` (or at the
  head of the Props file) without using the model's helper functions.

False properties are proved false (`..._refuted`, with a concrete witness) and
listed as findings in section 5.

Wrong programs (`seeded/LOG.jsonl`): `theorems_failed` names where a proof script
stops, `theorems_blocked` the theorems of the claim that were not reached or depend on
it. A stopped script alone does not show that a statement is false of the edit; where
there is a `witness`, a consequence of the theorem was evaluated on the edited model and
came out false ("contradicted"), or the example does not tell the two apart ("not
contradicted"); elsewhere the `note` says how it was judged.

## 2. Plan per property

| id | what is modelled | how it is proved |
|----|------------------|------------------|
| C01 | `maximalPoints`, `mod` on uint16 indices | loop invariant; case analysis on border/corner; equivalence with neighbour spec |
| C02 | `createAnnularMask` incl. centre default and int conversion | loop invariant, pointwise characterisation |
| C03 | same + `calculateSTEMValues` | from C02/C04, pointwise on pixels |
| C04 | `calculateSTEMValues`, `_runCalculateSTEMValues` | loop invariant + bound on the accumulator |
| C05 | `createSTEMImages` with tasks executed in any order | tasks write disjoint positions; permutation argument |
| C06 | `calculateSTEMValuesSparse`, sparse `createSTEMImages` | induction on events |
| C07 | `radialSumFrame`, `radialSum` | exact ceil-sqrt on Z, bounds by monotonicity; conservation by fold |
| C08 | atomic additions as events | commutation of additions, all permutations |
| C09 | `getContainer`, `createSTEMHistogram` over Q; refutation over binary64 | bin edges monotone; each value in one bin |
| C10, C11 | `calculateAverage`, `maximumDiffractionPattern` | fold invariants |
| C12, C13, C44 | `StreamReader` over byte lists | encoder/decoder round trip, induction on records and files |
| C14 | `readSectorDataVersion4/5` | pointwise index arithmetic |
| C15, C16 | `SectorStreamReader::read`, `reset` | invariant relating cache, consumed input and emitted frames |
| C17 | `dataCaptured` | count |
| C18 | `toHdf5*` | index bijection |
| C19 | threaded reader as transition system | inductive invariant over interleavings |
| C20-C23 | multi-pass reader: scan map, claims, `processFrame`, `readFrames` | invariants; refinement to header list |
| C24-C26, C29 | threaded `electronCount` protocol | transition system invariant; conservation of frames |
| C27, C28 | per-frame preprocessing, `applyRowDark` | pointwise loop invariants |
| C30 | `PyReader` | induction on remaining images |
| C31 | buffer strides | index arithmetic, refutation for non-square |
| C32-C35 | MPI partitioning/merging/serialisation | arithmetic; fold/permutation arguments |
| C36-C41 | Python `SparseArray`, compatibility conversion | refinement to the dense expansion |
| C42 | `com_sparse` v0/v1 | fold equality |
| C43 | validation branches | case analysis |
| C45-C49 | further facts on masks, events and counting | pointwise; two-run relation; invariant |
| C50-C53 | `mask_real_space`, `calculate_sum_sparse`, `virtual_darkfield`, `radial_sum_sparse` | refinement to sums over the dense expansion; exact comparison of rounded square roots with integers |
| C54 | `filter_bad_sectors`, `np.nanmedian` on binary32 | invariant over the scan order; bounds on rounded means |
| C55 | `_safe_cast`, the gain argument of `electron_count` | exactness of the conversions |
| C56 | end of `electron_count` in Python, composed with the threaded counter | composition of C24 (threaded counting), the frame counter and C36 |
| C57 | sampling loop of `calculateThresholds`, random numbers as a function | loop invariant; Flocq conversions; every choice realised by a constructed sequence |
| C58 | `calculateMean`, `calculateVariance` in IEEE doubles | exact partial sums; relative error analysis by induction |
| C59 | `calculateThresholds` after sampling, solver as a function | bounds on the rounded statistics imply bins in range; histogram by induction |
| C62 | read_frames of the Python class over the multi-pass reader (ReadFramesModel.v), frame indices through the NumPy selection of SparseModel.v | composition with C21-C23; Python slices proved equal to a specification by start, stop and step |
| C63 | save_raw_data, get_hdf5_reader and create_stem_images (StemPyModel.v) over PyModel.v and StemModel.v | composition of C30 with C04; the stored copy is proved to have the same elements |
| C64 | the event branches of create_stem_images (StemPyModel.v) | composition of C06 with C36; in-place operations as a history with a witness |
| C65 | electron_count in Python for readers that are not threaded, over an interface of read() and reset() (ClassicPyModel.v), with IEEE frames (IeeeModel.v) | what a reader delivers after any history; frame counter by rounding lemmas; wrapped array by C36; stream files by C12/C13, arrays by C33 |
| C66 | get_scan_path with decimal text, zfill, int(), split, stem and globbing on texts (ScanPathModel.v); directories as lists of documented file names and unrelated files (ScanPathSpec.v) | glob decomposition, splitting at underscores, uniqueness of decimal texts |
| C67 | create_stem_histogram, calculate_average, radial_sum, maximum_diffraction_pattern in Python (ReaderImageModel.v) over the interface of plain readers (ClassicPyModel.v) and the C++ models | what iterating a reader gives after any history, composed with C05, C08, C09; the binding's overloads as a table |
| C68 | dark and gain arguments of electron_count: ImageArray with its hidden C++ image, memory order, float32 check (ReaderImageModel.v) | rounding of averages through Flocq; odd denominators are never single-precision; composition with C65 |
| C69 | phase_from_com over real and complex numbers, the transforms as their defining sums (PhaseModel.v); surfaces as sums of waves, slopes as derivatives of the standard library (PhaseSpec.v) | orthogonality of roots of unity, one wave at a time, linearity; Fourier inversion |
| C70 | the error functor of the threshold fit over real numbers (GaussFitModel.v); normal curve and misfit (GaussFitSpec.v). The solver itself is Eigen's and is not modelled | derivatives by Coquelicot, divided differences of a quadratic at three points |
| C71 | the functions of h5readwrite.cpp and HIDCloser as programs over an environment (H5WrapModel.v); the environment is the HDF5 library with any pattern of failing calls (H5LibModel.v); open identifiers, states between calls, sessions (H5WrapSpec.v) | a program logic of owned identifiers: every program of the interface keeps the frame |
| C72 | the same programs; arrays in row-major order, regions, what can be created (H5DataSpec.v) | weakest preconditions of total programs under any failures; arithmetic of offsets of a region |
| C73 | toHdf5 as a program of the wrapper over the failing library (ExportModel.v), the blocks of the reader as a list with or without an exception after it | invariant of the loop over the blocks from C72's update, C71 for what is open; the sector reader of C15 for the files |
| C74 | extractSector with the backtracking matcher of its regular expression (NameModel.v) | induction over the text; the greedy choice is the last decomposition |
| C75 | reader(), the five reader classes, ReaderMixin and the for loop over a file system of named files (LoopModel.v) | the loop is a prefix of the reads of C12, C13, C15, C16, C30, cut at the first block of version 0; names through C74 |
| C76 | the two decorators over a heap of function objects and dictionaries, with Python's binding of arguments (PipeModel.v) | what one decorator does to the heap, then induction over the stack and over programs |
| C77 | the objects and attributes of one file and the saves as sequences of steps, each of which may raise and leave what was stored before (SaveModel.v) | each part of the file changes only by calls of its kind, and not after the first; induction over the history |
| C78 | the decorators around max, min and sum, and NumPy's reductions over a tuple of axes as fibres of a C-ordered array (AxisModel.v) | sorting is a function of the set of axes; the fibres along all scan or all frame axes are the columns or rows of the flat array (induction over shapes); then C36 |
| C79 | threaded counting with the actual threshold calculation and the actual preprocessing, the metadata record and its dictionary, the broadcast of the thresholds (FullCountModel.v) | the final state of a counting run (C35, C55) exposes samples and thresholds; each pixel then by the error-free float32 steps of C40 and C65; the array by C57 |
| C80 | mean with its decorators, the nested call of sum in float32, the division by the product of the axis lengths (MeanModel.v); NumPy's order of summation is any | the number of entries of a fibre is the product of the axis lengths (induction over the shape); sums of non-negative integers up to 2^24 are exact in float32 in any order; then C36 and C78 |
| C81 | a program that makes any calls on one SparseArray one after the other, going on after exceptions (CallsModel.v); the same program on a dense array is the specification (CallsSpec.v) | refinement: each call keeps the relation 'holds the same values' (C36 - C39, C78, C80, and an inversion of sparse selection), then induction over the history; CallsPlain.v gives the conditions in terms of the dense program, with the bound f * f on the frames that binning adds |
| C82 | sessions: write_to_hdf5, from_hdf5 and the calls of C81, repeated (SessionModel.v) | C41 for each file, a cropped array has the cropped dense values, then C81 and induction over the sessions |
| C83 | the histories of C81 and C82 (CallsModel.v, SessionModel.v) | tiles partition the plane (sums over blocks, exchange of sums); a selection without repetitions is a part of the index set; then C81, C82 and induction |
| C60, C61 | the reader and the counter as one transition system (JointModel.v) | every joint execution projects to one of the reader and one of the counter on the blocks it delivers; progress from both |

## 3. Trusted base

* Coq 8.16.1 kernel, including its `vm_compute` machine (used for concrete
  examples and witnesses, and for a few closed arithmetic facts).
* The model's faithfulness to the cited source lines (reviewed by hand; the
  code is not run).
* Flocq 4 as the definition of IEEE-754 binary32/binary64 (definitions and
  proved lemmas only; it adds no axiom beyond the standard library's reals).
* Coquelicot 3 for complex numbers (their field operations) and for computing
  derivatives in the proofs of C69 and C70; it adds no axiom beyond the standard library's.
* Axioms: none of our own; those reported by `Print Assumptions` are listed in
  section 6.

Assumptions that are part of the model rather than of Coq:

* `std::mutex`, `std::condition_variable` and default `std::atomic` operations
  are sequentially consistent; a plain access racing with another one is
  reported as a race by the model (C19, C20, C49), never given a value.
* Files are lists of bytes that do not change while they are read.
* MPI messages of one collective arrive complete and in the right order;
  collectives match up in program order per rank.
* The HDF5 C library behaves as written down in `H5LibModel.v`: a call that fails
  returns a negative number and changes nothing, a call with an identifier that is
  not open or of another kind fails, and any other call may fail at any time
  (C71, C72, C73 hold for every pattern of failures).
* NumPy and h5py primitives behave as written down in the comment of the
  definition that models them (`SparseModel.v`, `SparseFileModel.v`,
  `ComModel.v`, `HelperModel.v`).

## 4. What is modelled and what is not

| source | lines | model |
|--------|-------|-------|
| stempy/mask.cpp | all | StemModel |
| stempy/image.cpp | STEM values and images (dense, sparse), histogram, radial sum, averages, maximum pattern | StemModel, RadialModel, ImageModel |
| stempy/electron.cpp | 239-855 (events, preprocessing, classic and threaded counting, sparse export) | ElectronModel, CountModel |
| stempy/electronthresholds.cpp | 13-31, 74-193 (sampling, statistics, histogram, thresholds; the solver is a parameter). CountModel takes the thresholds as inputs, FullCountModel supplies them | ThresholdModel |
| stempy/electronthresholds.cpp | 33-72, 171-175 (function and derivatives given to the solver) in exact arithmetic | GaussFitModel |
| stempy/reader.cpp, reader.h | StreamReader, SectorStreamReader, threaded and multi-pass readers, dataCaptured, toHdf5 | StreamModel, SectorModel, CapturedModel, H5Model, ThreadedModel, MultipassModel |
| h5cpp/h5readwrite.cpp, h5readwrite.h, hidcloser.h, h5typemaps.h | all but the move operations of HIDCloser | H5WrapModel (H5LibModel is the library) |
| stempy/reader.cpp MPI parts, python MPI sharing | shares, map reduction, block and event gathers | MpiModel |
| thirdparty ThreadPool | FIFO of tasks, workers, join | PoolModel |
| stempy/python/*.cpp | PyReader, buffer views | PyModel |
| electronCount with a threaded reader | reader and counter as one system | JointModel |
| stempy/reader.cpp 280-289 | extractSector | NameModel |
| python/stempy/io/__init__.py 24-60, 177-211, python/io.cpp 67-133 | reader, ReaderMixin, the reader classes; the data view of a block is C31 | LoopModel |
| python/stempy/pipeline/__init__.py | pipeline, parameter; not the abstract class Pipeline, *args and keyword-only parameters | PipeModel |
| python/stempy/io/__init__.py, io/sparse_array.py | save_raw_data, save_stem_images, save_electron_counts, write_to_hdf5 step by step on one file | SaveModel |
| python/stempy/io/sparse_array.py | _format_axis, _default_full_expansion, max, min, sum for any axis, scan_axes, frame_axes | AxisModel |
| stempy/electron.cpp, electron.h, electron_mpi.cpp, python/image.cpp, python/stempy/image/__init__.py | electron.cpp 527-561, 688-731, 813-855; electron.h 14-30; electron_mpi.cpp 186-198; python/image.cpp 368-390; image/__init__.py 781-804 (threaded counting with calculated thresholds, metadata) | FullCountModel |
| python/stempy/io/sparse_array.py | mean for any axis (519-558) | MeanModel |
| python/stempy/io/sparse_array.py | any sequence of method calls on one array (284-383, 560-715) | CallsModel |
| python/stempy/io/sparse_array.py | work interrupted by write_to_hdf5 and from_hdf5 (174-282) | SessionModel |
| python/stempy/io/__init__.py | read_frames, num_frames_per_scan, scan_shape | ReadFramesModel |
| python/stempy/io/__init__.py, image/__init__.py | save_raw_data, get_hdf5_reader, create_stem_images | StemPyModel |
| python/stempy/image/__init__.py, electron.cpp 408-525 | electron_count with Reader, SectorReader, PyReader | ClassicPyModel, IeeeModel |
| python/stempy/image/__init__.py 126-194, 240-280, 354-400, python/image.cpp 493-550, 591-613 | create_stem_histogram, ImageArray, calculate_average, radial_sum, maximum_diffraction_pattern, the references of electron_count | ReaderImageModel |
| python/stempy/image/__init__.py 731-778 | phase_from_com in exact arithmetic (no rounding) | PhaseModel |
| python/stempy/contrib/__init__.py | all; a directory is a list of names, thresholds are integers | ScanPathModel |
| python/stempy/io/sparse_array.py | construction, indexing, reductions, binning, reading and writing HDF5 | SparseModel, SparseMeanModel, SparseFileModel |
| python/stempy/io/compatibility.py | version conversions | SparseFileModel |
| python/stempy/image/__init__.py | com_sparse (both versions), com_dense, calculate_sum_sparse, radial_sum_sparse, virtual_darkfield, mask_real_space, filter_bad_sectors, _safe_cast, end of electron_count | ComModel, HelperModel, CountedModel |

Not modelled: HDF5 library internals, the VTKm code paths (`#ifdef VTKm`),
the Levenberg-Marquardt solver of the threshold calculation, the algorithm and
rounding of numpy.fft, plotting, GUI, pybind11 marshalling, the file system beyond
"a file is a list of bytes", the network transport of MPI, weak-memory effects,
allocation failure, and numbers of bytes beyond the address space.

## 5. Findings

Statements the code violates.  Each entry marked with a theorem is proved about
the model (a witness or an exact condition); entries without one are remarks.

Images and masks

* Two frames of one scan position make a STEM image depend on the schedule
  (`stem_images_duplicate_positions_refuted`).
* STEM images of counted data are 65535 times the number of electrons under the
  mask, because the mask holds 0xFFFF (`sparse_equals_dense_refuted`).
* A mask radius above 46340 squares into signed overflow
  (`annular_mask_radius_overflow`); the default centre of an odd width is
  (w + 1) / 2 (`annular_mask_default_center`).
* A radial sum with 2^32 or more result bins overflows its size
  (`radial_sum_large_result_undefined`).
* The histogram drops the maximum for some bin counts, e.g. pixels 0 and 1 with
  49 bins (`histogram_all_pixels_refuted`); an empty image is undefined
  (`histogram_edge_cases`).
* The average of no image is NaN (`average_of_nothing`).
* A dark image smaller than the frame is read out of bounds
  (`maximum_pattern_small_dark_undefined`).

Electron counting

* Frames 65536 pixels wide or high make the neighbour search undefined
  (`maximal_points_65536_undefined`); a one-pixel frame is always an event
  candidate (`single_pixel_event_refuted`).
* Subtracting a dark value above the pixel wraps for 16-bit data
  (`u16_dark_subtraction_wraps`, `u16_dark_above_pixel_refuted`) and is undefined
  in the classic counter (`classic_dark_above_pixel_undefined`); the classic
  counter dereferences an absent dark image (`classic_without_dark_undefined`).
* Row-dark correction uses width and height the wrong way round
  (`row_dark_nonsquare_refuted`); with width one its median is undefined
  (`row_dark_median_width_one_undefined`).
* The threaded counter waits forever if fewer complete frames arrive than sample
  blocks are asked for (`threaded_count_hangs`, `threaded_count_blocks_forever`);
  asking for none is undefined (`threaded_count_zero_samples_undefined`), and so
  is a block without its complete flag (`threaded_count_no_flag_undefined`).
* Counting the sample and incomplete blocks in the calling thread races with the
  workers if a position has two frames (`threaded_count_two_frames_race_refuted`).
* The classic counter keeps only the last frame of a position
  (`classic_count_correct` states which one).

Readers

* A truncated file that is not the last one silently shifts the remaining frames
  (`stream_truncated_middle_file_refuted`); a version-1 header announcing more
  than 1014 images reads past the header (`stream_v1_header_undefined`).
* Sector data: resetting midway keeps the cache (`sector_reset_midway_refuted`),
  frames of one position are mixed (`sector_same_position_mixed_refuted`), cut
  data are accepted (`sector_truncated_data_accepted`, `sector_cut_file_unreported`),
  a cut header is read as garbage (`sector_truncated_header_undefined`), a sector
  number outside 0..3 writes outside the frame (`sector_outside_frame_undefined`).
* `dataCaptured` can be 1 although a sector is missing
  (`captured_one_missing_refuted`), and NaN without data (`captured_nothing`).
* HDF5 export of 2^31 or more positions overflows `int`
  (`h5_frames_large_scan_undefined`).
* Threaded reader: an unlocked look at the list of streams races
  (`threaded_streams_race_refuted`), two files of one sector lead to a use after
  free (`threaded_duplicate_sector_refuted`), the future of a second `readAll`
  throws (`threaded_second_read_all_refuted`).
* Multi-pass reader: files with positions outside the scan or cut in the header
  are undefined (`multipass_bad_files_refuted`), two files of one sector race
  (`multipass_duplicate_sector_refuted`), a cut file makes later frames zero but
  complete (`multipass_cut_file_refuted`), a second `readAll` delivers nothing
  (`multipass_second_read_all_refuted`). `read_frames` without a slice raises at
  every position with fewer frames than another one (`read_frames_all_refuted`).
* Python reader: block size 0 never ends (`py_zero_block_size_refuted`), the upper
  bound of the last block wraps (`py_upper_bound_wraps_refuted`), short and
  transposed data sets are read wrongly (`py_short_dataset_refuted`,
  `py_transposed_dataset_refuted`).
* NumPy views of a block are right exactly for square frames or one row
  (`block_view_right_iff`) and leave the buffer exactly if the frame is higher than
  wide (`block_view_out_of_bounds_iff`).

MPI

* Shares of threshold samples are not fair: 7 samples over 4 ranks are 1,1,1,4
  (`mpi_samples_fair_refuted`); with fewer samples than ranks all but the last
  rank get none, which is the undefined case above.
* More ranks than positions: after loading frames, `readAll` delivers frames
  several times (`mpi_more_ranks_than_positions_refuted`).
* Blocks of 2^32 pixels lose data (`mpi_block_size_wrap_refuted`); gathering 2^31
  bytes overflows before the size check (`mpi_gather_blocks_too_large_refuted`).

Sparse arrays

* `bin_frames` is wrong for frames that are not square (`C38_not_square_refuted`).
* Repeated advanced frame indices lose events (`C39_repeated_index_refuted`).
* The maximum over the frame raises on a position without events
  (`C36_max_frame_empty_refuted`); sums and expansion disagree if a frame lists a
  pixel twice (`C36_duplicate_in_frame_refuted`); the mean in single precision
  saturates at 2^24 events (`C36_mean_scan_saturates_refuted`).
* Version-1 data whose positions are permuted are converted wrongly when a frame
  is split (`C40_v1_permuted_refuted`); empty data raise (`C40_empty_raises`);
  version-1 data longer than the scan are taken for version 2
  (`C40_long_v1_refuted`).
* One-dimensional scans cannot be written (`C41_flat_scan_refuted`); removing
  flyback from version-2 files ignores the positions (`C41_flyback_v2_refuted`);
  writing to an existing file raises (`C77_results`).
* Centre of mass: rows are wrong for frames that are not square
  (`C42_not_square_refuted`); without frames one version raises and the other
  returns NaN (`C42_no_frames_refuted`); when cropping around the frame's own
  centre the versions keep different events (`C42_crop_own_center_refuted`).
* Virtual dark field: the two centre arguments are swapped with respect to the
  documentation (`C52_row_column_swapped_refuted`); rows are wrong for frames that
  are not square (`C52_not_square_refuted`); a centre 65536 pixels away selects
  electrons at column 0 because the square wraps (`C52_far_centre_refuted`).
* The last bin of the sparse radial sum is closed above
  (`C53_last_bin_closed_refuted`), and its bins are floors of the distance where
  the C++ radial sum uses ceilings (C07), so the two do not agree.
* Bad centre-of-mass values in the first row or column become NaN, because the
  slice starts at -1 (`C54_first_row_refuted`).
* A double precision gain whose inverse is not a single precision number, such
  as 3, makes `electron_count` raise (`C55_gain_refuted`).
* `electron_count` gives its SparseArray the frame shape (width, height) instead of
  (height, width), so expanded frames that are not square show electrons at the
  wrong places (`C56_frame_shape_refuted`).
* Threshold samples: a pixel below its dark level wraps to about 65535
  (`C57_below_dark_refuted`); a dark level of 32768 or more is undefined although
  counting accepts it (`C57_dark_range_refuted`); with gain, pixels below dark are
  undefined and fractions are dropped (`C57_gain_refuted`), because the corrected
  value is stored back into a 16 bit variable.
* Threshold histogram: the bin limits multiply the X-ray threshold itself, not the
  number of deviations, with the deviation.  One dim pixel among equal ones is
  written before the histogram (`C59_low_outlier_refuted`), equal pixels give an
  empty histogram that is read (`C59_constant_refuted`), black and saturated
  pixels overflow the int limits (`C59_wide_range_refuted`), a single pixel has
  no variance (`C58_single_pixel_refuted`), and the brightest value has no bin
  (`C59_brightest_left_out_refuted`).
* `electron_count` on the threaded reader: the reader never sets `complete`, which
  the counter reads for every sampled block, so counting never returns
  (`threaded_reader_count_never_returns`) and is undefined on some schedule
  (`threaded_reader_count_defined_refuted`).
* Counting twice with one multi-pass reader never returns, because the second
  `readAll` delivers nothing and the caller waits for samples
  (`multipass_count_twice_refuted`).
* `create_stem_images` on a NumPy array of raw frames that is not C-contiguous
  (transposed, Fortran-ordered, sliced with a step) sums the wrong pixels: the
  reader takes the address of the first element and reads on
  (`raw_array_strided_refuted`). The same array saved to a file first is right.
* `create_stem_images` passes `frame_shape` (rows, columns) of a SparseArray as
  (width, height) (`sparse_array_not_square_refuted`).
* After `bin_scans(..., in_place=True)`, `bin_frames(..., in_place=True)` or
  `reshape` on the result of `electron_count`, `create_stem_images` still returns
  the images of the array before the change, of the old size: it uses the C++
  object stored on the array (`counted_array_in_place_refuted`).
* `electron_count` with a plain reader and the default `darkreference=None`
  dereferences a null pointer (`C65_no_dark_undefined`).
* A pixel below its dark level converts a negative float to `uint16_t`, which is
  undefined (`C65_below_dark_refuted`).
* A second `electron_count` on the same plain reader raises `StopIteration`
  (`C65_second_count_stops`); the thresholds of a reader that is not at its start
  come from other blocks than those of a new one.
* `electron_count` with a `SectorReader` resets it after the threshold blocks; the
  frame being assembled is kept, so a position is delivered once with a sector
  missing and once with that sector only, and the electrons of the rest of the
  frame are lost (`C65_sector_reader_refuted`).
* `get_scan_path` with old file names takes an id or number whose digits only begin
  with those asked for: id 1 returns the file of id 12 (`C66_old_id_refuted`,
  `C66_old_num_refuted`), and two such files make a unique id ambiguous; so does the
  centered file of the same scan (`C66_old_unique_refuted`).
* With both a scan number and an id, `get_scan_path` ignores the number
  (`C66_both_given_refuted`); a scan number of six digits hides a file from a search
  by id (`C66_long_number_refuted`).
* `maximum_diffraction_pattern` with a dark reference always raises from Python
  (its overloads need an image type that is not registered) and has then read a
  block (`C67_maximum_dark_refuted`).
* A second image function on the same reader without a reset silently gives a 0 x 0
  image (`C67_second_call_empty`).
* `electron_count` refuses (ValueError) an average of `calculate_average` unless all
  its pixels are single-precision numbers (`C68_average_refused`): an odd number of
  frames fails as soon as one sum is not a multiple of it (`C68_odd_number_refuted`).
* An array computed from an average (scaled, rounded) is silently replaced by the
  average itself (`C68_derived_array_ignored`, `C68_derived_array_refuted`); an
  `ImageArray` made directly counts as no dark reference
  (`C68_new_image_array_ignored`).
* `com_sparse` returns the horizontal centre of mass first, `phase_from_com` takes
  the vertical one first: with aligned axes a wave from left to right vanishes
  (`C69_com_order_refuted`); theta = pi / 2 with flip is right (`C69_com_order`).
* A wave of two pixels per period is lost by `phase_from_com` (`C69_nyquist_refuted`).
* Two histogram bins do not determine the background threshold, although nothing asks
  for three (`C70_two_bins_refuted`).
* Dark and gain arrays in Fortran order are used transposed (`C68_fortran_order`,
  `C68_fortran_order_refuted`).

* `setAttribute` of a text never closes the datatype it copies
  (`C71_text_leak_refuted`).
* `attribute<T>` of an attribute with several values stores all of them to one
  variable (`C71_attribute_overrun_refuted`).
* A failing `H5Tequal` counts as "equal" in `dataType` and `attributeType`: the type
  is then reported as the first one of the map, Int8 in the model (`C71_type_failure_refuted`).
* `writeData` that fails after creating the data set leaves one full of zeros, which
  reads as data (`C72_failed_write_refuted`).
* `readData` with strides and without counts promises as much data as possible but
  leaves out the last element when the stride does not divide the size
  (`C72_as_much_as_possible_refuted`).
* `readData` ignores that the selection of a region failed; with counts for as many
  elements as the whole data set it then returns the whole
  (`C72_bad_region_refuted`).
* The comparison of types in `readData` and `attribute` takes a failing `H5Tequal`
  for equality if the second call works (`C72_other_type_refuted`).
* `setAttribute` of an empty vector returns false but makes the attribute
  (`C72_empty_attribute_refuted`).
* `children` ignores failures: a name comes twice, or from memory never written
  (`C72_children_refuted`).
* `toHdf5` does not look at the results of `createDataSet`, `setAttribute` and
  `createGroup`: it returns although the scan dimensions are missing or zeros, or
  `/stem/images` is missing (`C73_attribute_refuted`).  A missing data set of frames
  is noticed by the first update.
* `toHdf5` without frames returns although the file could not be created
  (`C73_no_frames_refuted`); an export that throws has already replaced the old file
  (`C73_old_file_refuted`).

Python readers and file names

* The sector number may come from a directory: `/data/module3/dark.data` is read as
  sector 3 (`C74_directory_refuted`); the name need not end in `.data`
  (`C74_ending_refuted`).  A sector file without a number is opened as sector -1 and
  the first record is written outside the frame (`C75_unnumbered_undefined`).
* The readers of the backends `thread` and `multi-pass` have `__iter__` and
  `__next__` but a loop over them raises AttributeError, since their base classes
  bind no `read` (`C75_threaded_refuted`).
* In Python a version 1 record whose header gives version 0 ends the data; in C++ it
  does not (`C75_version_zero_refuted`, exact in `C75_stream`).
* For versions 1 to 3 `reader()` drops any backend and option without a word
  (`C75_ignored_refuted`).

Pipeline decorators

* A declared parameter can no longer be given by place: the wrapper adds its default
  and the call raises TypeError (`C76_by_place_refuted`).
* A declared parameter that the function does not take makes every call fail
  (`C76_not_taken_refuted`).
* `functools.wraps` copies the reference to PARAMETERS, so two pipelines made of one
  function list the parameters of both, though each fills in its own
  (`C76_shared_refuted`).

Saving to a file more than once

* A save of counted data onto a file of version 1 or 2 raises, but has already set the
  version to 3: the old events are then read by the rules of version 3
  (`C77_old_file_refuted`).
* A save of an array with a one-dimensional scan raises, but leaves scan positions
  behind: the file can then neither be loaded nor be given any counted array
  (`C77_flat_scan_refuted`).

Reductions over axes

* Negative axes are not recognised as the scan or frame axes: with
  allow_full_expand=False a sum over (-4, -3) raises although a sum over (0, 1) does
  not (`C78_negative_refuted`).
* dtype for max and min works over the whole scan or frame, but makes the call raise
  TypeError for any other axes (`C78_max_type_refuted`).
* Without dtype, sums over the whole scan or frame wrap around in the type of the
  array, other sums are taken in 64 bits (`C78_default_type_refuted`).

Counting with a threaded reader and its metadata

* The metadata of an array counted with a classic reader always say
  threshold_calculated True with both thresholds 0, whatever was used: electronCount
  for a classic reader never fills them in (`C79_classic_metadata_refuted`, for every
  call).
* With MPI only the root's metadata hold the thresholds; on the other ranks they say
  threshold_calculated False (`C79_mpi_metadata_refuted`).
* Without a gain the threaded reader subtracts the integer part of the dark level in
  16 bits (a pixel below its dark level wraps around to a large value), the classic
  reader truncates the difference: a dark level that is not an integer gives values
  that differ by one, so the two can count different electrons in the same frame
  (`C79_dark_fraction_refuted`, `C79_readers_differ_refuted`).

Mean over axes

* mean(axis, dtype=<integer type>) raises UFuncTypeError for every array and all axes
  but all of them: the sum has that type and cannot be divided in place
  (`C80_integer_type_refuted`).

Histories of calls

* reshape accepts two negative dimensions whose product fits; the array then has a
  negative shape (`C81_negative_shape_refuted`).
* With one-dimensional frames a surplus `:` is accepted by sparse slicing, while NumPy
  and dense slicing raise IndexError (`C81_extra_key_refuted`).

Sessions

* After ravel_scans, or any reshape to three dimensions, an array cannot be saved:
  write_to_hdf5 raises IndexError (`C82_raveled_refuted`).



Remarks without a theorem: dark and gain arrays of one element are ignored by the
Python binding (`toCpp`); the VTKm build treats the border differently; a vector
of blocks passed by value is moved from on first use; `get_scan_path` documents a
`str` directory but calls `.glob` on it; the move operations of `HIDCloser` do not
move the function that closes, so a moved closer would close nothing (nothing moves one).

## 6. Axioms per theorem

`Print Assumptions` is printed below every property theorem during the build.
The parameters `Coq.Reals.Rdefinitions.*` and `Coq.ssr.ssrunder.*` that a scan of
loaded libraries shows are sealed module fields of the standard library (they
have definitions); no theorem assumes them.  What it prints for each theorem of
MANIFEST.json:

* "Closed under the global context" (no axiom): `maximal_points_correct`,
  `maximal_points_65536_undefined`, `annular_mask_membership`,
  `annular_mask_default_center`, `annular_mask_radius_overflow`,
  `adjacent_annuli_add`, `stem_images_correct`,
  `stem_images_schedule_independent`, `stem_images_terminates`,
  `stem_pool_no_deadlock`, `stem_pool_finite`,
  `stem_images_duplicate_positions_refuted`, `sparse_stem_images_correct`,
  `sparse_stem_order_independent`, `sparse_equals_dense_refuted`,
  `sparse_stem_event_out_of_frame`, `radial_sum_correct`,
  `radial_sum_conserves`, `radial_rings_partition`, `radial_sum_rejects`,
  `radial_sum_large_result_undefined`, `radial_sum_schedule_independent`,
  `radial_sum_any_workers`, `radial_sum_terminates`, `radial_pool_no_deadlock`,
  `stream_decodes`, `stream_iteration`, `stream_reset_restarts`,
  `stream_reset_iteration`, `sectors_fill_frame`, `pixel_source_576`,
  `pixel_source_bijective`, `sector_outside_frame_undefined`,
  `sector_reader_exactly_once`, `frame_block_contents`,
  `sector_same_position_mixed_refuted`, `sector_truncated_data_accepted`,
  `sector_truncated_header_undefined`, `sector_cut_file_unreported`,
  `sector_reset_restarts`, `sector_reset_midway_refuted`, `h5_frames_correct`,
  `h5_cube_correct`, `h5_distinct_positions`, `h5_outside_scan_reported`,
  `to_hdf5_correct`, `h5_frames_large_scan_undefined`, `threaded_exactly_once`,
  `threaded_holds_only_incomplete`, `threaded_delivers_only_complete`,
  `threaded_never_undefined`, `threaded_one_thread_per_file`,
  `threaded_reads_own_file`, `threaded_can_finish`, `threaded_work_bounded`,
  `threaded_worker_count`, `threaded_second_read_all_refuted`,
  `threaded_streams_race_refuted`, `threaded_duplicate_sector_refuted`,
  `multipass_scan_map`, `multipass_scan_map_deterministic`,
  `multipass_headers_progress`, `multipass_headers_bounded`,
  `multipass_bad_files_refuted`, `multipass_duplicate_sector_refuted`,
  `multipass_claims_once`, `multipass_read_all_exactly_once`,
  `multipass_read_all_can_finish`, `multipass_frames_progress`,
  `multipass_second_read_all_refuted`, `multipass_frame_assembled`,
  `multipass_block_pixels`, `multipass_cut_file_refuted`,
  `multipass_load_frames`, `multipass_frame_numbers_unique`,
  `multipass_num_frames`, `threaded_count_correct`, `threaded_count_safe`,
  `padding_correct`, `threaded_count_terminates`, `threaded_count_hangs`,
  `threaded_count_blocks_forever`, `threaded_count_zero_samples_undefined`,
  `threaded_count_no_flag_undefined`, `preprocess_correct`,
  `count_frame_correct`, `u16_dark_subtraction_wraps`,
  `u16_dark_above_pixel_refuted`, `classic_without_dark_undefined`,
  `classic_dark_above_pixel_undefined`, `row_dark_square_correct`,
  `row_dark_nonsquare_refuted`, `row_dark_median_width_one_undefined`,
  `median_is_middle`, `threaded_events_local`, `classic_events_local`,
  `py_reader_after_reset`, `py_reader_fresh`, `py_reader_iteration`,
  `py_zero_block_size_refuted`, `py_upper_bound_wraps_refuted`,
  `py_short_dataset_refuted`, `py_transposed_dataset_refuted`,
  `image_view_correct`, `radial_view_correct`, `block_view_square`,
  `block_view_right_iff`, `block_view_out_of_bounds_iff`, `mpi_share_partition`,
  `mpi_samples_total`, `mpi_samples_fair_refuted`, `mpi_scan_map`,
  `mpi_scan_map_can_finish`, `mpi_read_all_exactly_once`,
  `mpi_read_all_can_finish`, `mpi_same_as_single`,
  `mpi_num_frames_then_read_all`, `mpi_gather_events`,
  `mpi_gather_events_can_finish`, `mpi_gather_events_owner`,
  `mpi_more_ranks_than_positions_refuted`, `mpi_block_round_trip`,
  `mpi_gather_blocks`, `mpi_block_size_wrap_refuted`,
  `mpi_gather_blocks_too_large_refuted`, `C36_dense_values`, `C36_sum_scan`,
  `C36_sum_frame`, `C36_max_scan`, `C36_min_scan`, `C36_max_frame`,
  `C36_min_frame`, `C36_max_frame_empty_refuted`,
  `C36_duplicate_in_frame_refuted`, `C37_bin_scans`, `C38_bin_frames`,
  `C38_not_square_refuted`, `C39_slice_sparse`, `C39_slice_dense`,
  `C39_no_repeats`, `C39_value_or_raise`, `C39_reshape`, `C39_ravel_scans`,
  `C39_repeated_index_refuted`, `C40_v2_to_v3`, `C40_v1_to_v2`, `C40_v1_to_v3`,
  `C40_dispatch`, `C40_v1_permuted_refuted`, `C40_empty_raises`,
  `C40_long_v1_refuted`, `C41_round_trip`, `C41_flyback`, `C41_old_versions`,
  `C41_newer_version`, `C41_flat_scan_refuted`, `C41_flyback_v2_refuted`,
  `stem_arguments_validated`, `sparse_arguments_validated`,
  `stream_truncated_reported`, `stream_read_any`, `stream_unknown_version`,
  `stream_constructor_errors`, `stream_truncated_middle_file_refuted`,
  `stream_v1_header_undefined`, `u16_event_between_thresholds`,
  `single_pixel_event_refuted`, `events_not_adjacent`, `event_count_bound`,
  `events_order_invariant`, `classic_count_correct`,
  `threaded_count_workers_exclusive`, `threaded_count_two_frames_race_refuted`,
  `C50_masked_sum`, `C50_full_mask`, `C50_complement`, `C50_wrong_shape`,
  `C51_event_lists`, `C51_sparse_data`, `C51_out_of_range`, `C56_sparse_array`,
  `C56_threaded_end_to_end`, `C56_frame_shape_refuted`,
  `multipass_count_correct`, `multipass_count_safe`,
  `multipass_count_terminates`, `multipass_count_hangs`,
  `multipass_count_schedule_independent`, `multipass_count_sparse`,
  `scan_blocks_exist`, `threaded_reader_count_never_returns`,
  `threaded_reader_count_defined_refuted`, `multipass_count_twice_refuted`,
  `read_frames_correct`, `read_frames_can_finish`, `multipass_scan_dimensions`,
  `read_frames_all_refuted`, `save_raw_data_stores`, `save_raw_data_again`,
  `raw_file_stem_images`, `raw_array_stem_images`, `raw_array_needs_dimensions`,
  `raw_array_strided_refuted`, `sparse_array_stem_images`,
  `sparse_array_stem_images_dense`, `listed_events_stem_images`,
  `counted_array_stem_images`, `sparse_array_not_square_refuted`,
  `counted_array_in_place_refuted`, `C66_new_by_id`, `C66_new_by_num`,
  `C66_old_by_threshold`, `C66_old_by_id_exact`, `C66_old_by_num_exact`,
  `C66_old_by_id`, `C66_old_by_num`, `C66_any_version_id`,
  `C66_any_version_num`, `C66_found`, `C66_bad_input`, `C66_old_id_refuted`,
  `C66_old_unique_refuted`, `C66_old_num_refuted`, `C66_both_given_refuted`,
  `C66_long_number_refuted`, `C67_radial_sum`, `C71_closes`, `C71_text`,
  `C71_session`, `C71_nothing_left`, `C71_text_leak_refuted`,
  `C71_type_failure_refuted`, `C71_attribute_overrun_refuted`, `C72_write`,
  `C72_read`, `C72_round_trip`, `C72_region`, `C72_update`, `C72_set_attribute`,
  `C72_attribute`, `C72_attribute_round_trip`, `C72_create`, `C72_create_group`,
  `C72_children`, `C72_all_data_sets`, `C72_set_text`, `C72_text_round_trip`,
  `C72_data_type`, `C72_attribute_type`, `C72_as_much_as_possible_refuted`,
  `C72_bad_region_refuted`, `C72_other_type_refuted`,
  `C72_failed_write_refuted`, `C72_empty_attribute_refuted`,
  `C72_children_refuted`, `C73_export`, `C73_read_back`, `C73_from_files`,
  `C73_attribute_refuted`, `C73_no_frames_refuted`, `C73_old_file_refuted`,
  `C74_sector`, `C74_usual_name`, `C74_directory_refuted`, `C74_ending_refuted`,
  `C75_stream`, `C75_truncated`, `C75_sector`, `C75_raw_file`, `C75_defined`,
  `C75_refused`, `C75_threads`, `C75_threaded_refuted`, `C75_ignored_refuted`,
  `C75_version_zero_refuted`, `C75_unnumbered_undefined`, `C76_listed`,
  `C76_call`, `C76_separate`, `C76_calls_stay`, `C76_by_place_refuted`,
  `C76_not_taken_refuted`, `C76_shared_refuted`, `C77_results`, `C77_counts`,
  `C77_no_counts`, `C77_raw`, `C77_stem`, `C77_stays`, `C77_old_file_refuted`,
  `C77_flat_scan_refuted`, `C78_sum`, `C78_sum_default`, `C78_max`, `C78_min`,
  `C78_denied`, `C78_unchanged`, `C78_order`, `C78_negative_refuted`,
  `C78_max_type_refuted`, `C78_default_type_refuted`, `C81_start`,
  `C81_extra_key_refuted`, `C81_bin_frames_bound`, `C83_recorded`.
* `ClassicalDedekindReals.sig_forall_dec`, `ClassicalDedekindReals.sig_not_dec`,
  `FunctionalExtensionality.functional_extensionality_dep`:
  `C69_every_odd_image`, `C69_linear`, `C69_offset`, `C69_zero_mean`,
  `C69_only_pixels`, `C69_rotation`, `C69_mirror`, `C69_com_order`,
  `C69_no_division_by_zero`, `C70_misfit`, `C70_sign`, `C70_true_curve`,
  `C70_full_rank`, `C70_bins`, `C70_two_bins_refuted`.
* `ClassicalDedekindReals.sig_forall_dec`, `ClassicalDedekindReals.sig_not_dec`,
  `Classical_Prop.classic`,
  `FunctionalExtensionality.functional_extensionality_dep`:
  `binary64_ceil_sqrt`, `binary64_square_sum_exact`, `histogram_counts`,
  `histogram_total`, `container_edges`, `image_histogram`, `histogram_lossless`,
  `histogram_loses_only_maxima`, `histogram_all_pixels_refuted`,
  `histogram_edge_cases`, `average_correct`, `average_of_nothing`,
  `average_order_independent`, `maximum_pattern_correct`,
  `maximum_pattern_dark_correct`, `maximum_pattern_order_independent`,
  `maximum_pattern_small_dark_undefined`, `captured_fraction`,
  `captured_one_iff`, `captured_nothing`, `captured_one_missing_refuted`,
  `C36_mean_scan`, `C36_mean_frame`, `C36_mean_scan_saturates_refuted`,
  `C42_versions_agree`, `C42_values`, `C42_replace_nans`, `C42_dense`,
  `C42_unknown_version`, `C42_not_square_refuted`, `C42_no_frames_refuted`,
  `C42_crop_own_center_refuted`, `C52_virtual_darkfield`,
  `C52_row_column_swapped_refuted`, `C52_not_square_refuted`,
  `C52_far_centre_refuted`, `C53_radial_sum_sparse`, `C53_conservation`,
  `C53_last_bin_closed_refuted`, `C54_filter_values`, `C54_filter_range`,
  `C54_filter_fills`, `C54_first_row_refuted`, `C55_safe_cast_exact`,
  `C55_safe_cast_raises`, `C55_safe_cast_nan`, `C55_gain_power_of_two`,
  `C55_gain_refuted`, `C57_samples`, `C57_every_frame_possible`,
  `C57_samples_gain`, `C57_below_dark_refuted`, `C57_dark_range_refuted`,
  `C57_gain_refuted`, `C58_mean`, `C58_variance`, `C58_single_pixel_refuted`,
  `C59_thresholds`, `C59_no_undefined_behaviour`, `C59_background`,
  `C59_low_outlier_refuted`, `C59_constant_refuted`, `C59_wide_range_refuted`,
  `C59_brightest_left_out_refuted`, `C65_electron_count`,
  `C65_reset_then_count`, `C65_too_few_blocks`, `C65_second_count_stops`,
  `C65_no_dark_undefined`, `C65_stream_files`, `C65_array`,
  `C65_below_dark_refuted`, `C65_sector_reader_refuted`, `C67_average`,
  `C67_maximum`, `C67_histogram`, `C67_terminates`, `C67_reset_is_new`,
  `C67_second_call_empty`, `C67_maximum_dark_refuted`, `C68_average_dark`,
  `C68_average_refused`, `C68_odd_number_refuted`, `C68_power_of_two_frames`,
  `C68_plain_dark`, `C68_in_place`, `C68_derived_array_ignored`,
  `C68_new_image_array_ignored`, `C68_fortran_order`,
  `C68_derived_array_refuted`, `C68_fortran_order_refuted`, `C69_slopes_exist`,
  `C69_gradient`, `C69_exact`, `C69_regularised`, `C69_any_phase`, `C69_curl`,
  `C69_com_order_refuted`, `C69_nyquist_refuted`, `C70_jacobian`,
  `C70_identified`, `C79_threaded`, `C79_multipass`, `C79_mpi_same_thresholds`,
  `C79_classic_metadata_refuted`, `C79_mpi_metadata_refuted`,
  `C79_dark_fraction_refuted`, `C79_readers_differ_refuted`, `C80_mean`,
  `C80_mean_all`, `C80_denied`, `C80_bad_axes`, `C80_unchanged`,
  `C80_integer_type_refuted`, `C81_call`, `C81_history`, `C81_sum`,
  `C81_select`, `C81_same_values`, `C81_negative_shape_refuted`,
  `C81_plain_history`, `C82_sessions`, `C82_files_make_no_difference`,
  `C82_raveled_refuted`, `C83_conserved`, `C83_never_more`, `C83_sessions`.
