{"id": "C01", "title": "Electron finder returns exactly the strict local maxima", "statement": "For a preprocessed frame of width w and height h (both between 1 and 65535), the list of electron strike positions the library reports for the frame contains pixel index i if and only if i is inside the frame and the value at i is strictly greater than the value at every one of its (up to eight) neighbours that lie inside the frame; the list is strictly ascending (no duplicates).", "quantifier": "all frame widths, heights and pixel contents", "why_tests_cant": "The claim ranges over every frame size (including 1-pixel-wide frames, borders and corners) and every pixel assignment; index arithmetic is done in wrapped 16-bit and 32-bit integers, so it must be shown for every size, not a sample.", "anchors": ["stempy/electron.cpp: maximalPoints", "stempy/electron.cpp: mod"]}
{"id": "C02", "title": "Annular mask membership", "statement": "For every frame size and every inner/outer radius, a pixel belongs to the annular detector built for a STEM image if and only if its squared distance to the detector centre is at least inner^2 and strictly less than outer^2; a negative centre coordinate means the middle of the frame on that axis. Out-of-range radii (whose squares do not fit a C int) are flagged as undefined behaviour rather than silently accepted.", "quantifier": "all widths, heights, radii and centres", "why_tests_cant": "Boundary pixels at exact radii, defaults per coordinate and integer overflow must be right for every size and centre.", "anchors": ["stempy/mask.cpp: createAnnularMask"]}
{"id": "C03", "title": "Adjacent annuli add up", "statement": "For radii a <= b <= c and the same centre, the STEM value of every frame over [a,c) equals the sum of the values over [a,b) and [b,c): no pixel is counted twice or dropped at the shared boundary.", "quantifier": "all frames, sizes, centres and radii a<=b<=c", "why_tests_cant": "It is a statement about all triples of radii and all pixel values; an off-by-one at the boundary only shows for particular pixels.", "anchors": ["stempy/mask.cpp: createAnnularMask", "stempy/image.cpp: calculateSTEMValues"]}
{"id": "C04", "title": "Dense STEM value is the exact annulus sum", "statement": "The STEM value stored for a frame is exactly the sum of the pixel values inside the annulus, with no wrap-around of the 64-bit accumulator for any frame the 32-bit indexing can hold, and it is written at the frame's own scan position.", "quantifier": "all blocks, frames, masks and image numbers", "why_tests_cant": "Overflow freedom and placement are universally quantified over frame contents and positions.", "anchors": ["stempy/image.cpp: calculateSTEMValues", "stempy/image.cpp: createSTEMImages"]}
{"id": "C05", "title": "STEM images do not depend on thread scheduling", "statement": "When every scan position occurs in at most one block, the STEM images produced from a set of blocks are the same for every order in which the worker threads process the blocks; positions for which no frame was delivered hold zero.", "quantifier": "all block lists with pairwise distinct positions, all schedules (permutations of tasks)", "why_tests_cant": "The number of schedules is unbounded; a test sees one of them.", "anchors": ["stempy/image.cpp: createSTEMImages", "stempy/image.cpp: _runCalculateSTEMValues"]}
{"id": "C06", "title": "STEM images from electron events", "statement": "The STEM image computed from sparse electron events holds at each position the number of events that fall inside the annulus over all frames at that position, times the mask value 65535; the result is unchanged by reordering the events or the frames of a position.", "quantifier": "all event lists, all annuli", "why_tests_cant": "Quantifies over all event data.", "anchors": ["stempy/image.h: calculateSTEMValuesSparse", "stempy/image.h: createSTEMImages"]}
{"id": "C07", "title": "Radial sum conserves counts and stays in bounds", "statement": "For every centre inside the frame and every frame size, the radial-sum kernel only touches bins that exist for that scan position, and summing all radial bins of a position gives exactly the sum of all pixels of the frame at that position.", "quantifier": "all frame sizes, centres inside the frame, frame contents and scan positions", "why_tests_cant": "In-bounds access and conservation depend on a worst-case corner for each centre and size.", "anchors": ["stempy/image.cpp: radialSumFrame", "stempy/image.cpp: radialSum"]}
{"id": "C08", "title": "Radial sum is schedule independent", "statement": "Concurrent workers adding to the shared radial-sum buffer with atomic additions give the same buffer for every interleaving of the individual additions.", "quantifier": "all interleavings of any number of workers' additions", "why_tests_cant": "Unboundedly many interleavings.", "anchors": ["stempy/image.cpp: radialSumFrame", "stempy/atomic_primitives.h: sync_fetch_and_add"]}
{"id": "C09", "title": "STEM histogram accounts for every pixel", "statement": "With the edges get_container computes (from the smallest pixel, never decreasing), no pixel of a STEM image is counted in two bins of create_stem_histogram and every pixel not above the last edge is counted exactly once. When the bin width is a double (range a multiple of the bin count, or a power-of-two bin count) every pixel is counted and the maximum lands in the last bin; otherwise rounding can drop pixels, but only those equal to the maximum (pixel values up to 2^50).", "quantifier": "all images and bin counts", "why_tests_cant": "Bin-edge rounding fails only for particular combinations of value range and bin count.", "anchors": ["stempy/image.cpp: createSTEMHistogram", "stempy/image.cpp: getContainer"]}
{"id": "C10", "title": "Average frame", "statement": "calculateAverage returns for every pixel the sum of that pixel over all frames of all blocks divided by the number of frames delivered.", "quantifier": "all sequences of blocks of equal frame size", "why_tests_cant": "Quantifies over all block sequences, including blocks with different numbers of images.", "anchors": ["stempy/image.cpp: calculateAverage"]}
{"id": "C11", "title": "Maximum diffraction pattern", "statement": "maximumDiffractionPattern returns for every pixel the maximum over all frames, minus the dark reference when one is supplied; it is insensitive to frame order.", "quantifier": "all sequences of blocks", "why_tests_cant": "Quantifies over all block sequences and orders.", "anchors": ["stempy/image.cpp: maximumDiffractionPattern"]}
{"id": "C12", "title": "Stream files decode to the blocks that were written", "statement": "Reading a list of files, each the concatenation of well-formed header+data records of one format version (1, 2 or 3), yields exactly the records in order across file boundaries (skipping empty files), then end-of-data forever.", "quantifier": "all lists of files of well-formed records, all record contents", "why_tests_cant": "Round trip over all byte contents and all ways of splitting records into files.", "anchors": ["stempy/reader.cpp: StreamReader::read", "StreamReader::readHeaderVersion1/2/3", "StreamReader::openNextFile"]}
{"id": "C13", "title": "Reset restarts a stream reader", "statement": "After reset, a StreamReader delivers the same sequence of blocks as a freshly constructed one, whatever was read before.", "quantifier": "all file lists and all histories of reads before the reset", "why_tests_cant": "Quantifies over histories.", "anchors": ["stempy/reader.cpp: StreamReader::reset"]}
{"id": "C14", "title": "Sectors are placed disjointly and cover the frame", "statement": "Writing the four detector sectors of a frame (in any order) produces the 576x576 frame whose pixel (y,x) comes from exactly the sector and local offset prescribed for the data version: column strips for version 4, row strips for version 5.", "quantifier": "all sector contents and all arrival orders", "why_tests_cant": "331776 pixels x all contents x all orders.", "anchors": ["stempy/reader.cpp: SectorStreamReader::readSectorDataVersion4", "readSectorDataVersion5"]}
{"id": "C15", "title": "Sector reader emits every frame exactly once", "statement": "Reading sector files with SectorStreamReader delivers, for every scan position that appears in the files, exactly one block; all sectors of that position are contained in it; complete blocks are those with four sectors; when everything is delivered it returns end-of-data forever.", "quantifier": "all sets of sector files where a position appears at most once per sector, all interleavings induced by the round robin", "why_tests_cant": "Quantifies over all files of arbitrary length and missing-sector patterns.", "anchors": ["stempy/reader.cpp: SectorStreamReader::read", "SectorStreamReader::readAll"]}
{"id": "C16", "title": "Sector reader reset", "statement": "After reset a SectorStreamReader delivers the same blocks as a fresh reader. (False when reset happens while partially assembled frames are cached: the cache survives reset.)", "quantifier": "all file sets and read histories", "why_tests_cant": "Depends on the point in the history at which reset is called.", "anchors": ["stempy/reader.cpp: SectorStreamReader::reset"]}
{"id": "C17", "title": "Captured-data fraction", "statement": "dataCaptured returns the number of sector headers found divided by four times the number of scan positions, and is 1 exactly when that count equals 4*width*height.", "quantifier": "all sector files", "why_tests_cant": "Quantifies over files.", "anchors": ["stempy/reader.cpp: SectorStreamReader::dataCaptured"]}
{"id": "C18", "title": "HDF5 export puts every frame at its own position", "statement": "Exporting to HDF5 as frames or as a data cube writes each delivered frame at the place its image number designates; distinct positions never overwrite each other, and positions inside the scan are always inside the dataset.", "quantifier": "all sequences of delivered blocks, all scan sizes", "why_tests_cant": "Index bijection over all scan sizes.", "anchors": ["stempy/reader.cpp: SectorStreamReader::toHdf5FrameFormat", "toHdf5DataCubeFormat"]}
{"id": "C19", "title": "Threaded sector reader delivers each complete frame exactly once", "statement": "For any number of worker threads and any interleaving of their steps, each frame number whose four sectors are present in the files is delivered exactly once with all four sectors in place, no incomplete frame is delivered, and no two threads ever use the same file at the same time.", "quantifier": "all numbers of threads, all file contents, all interleavings", "why_tests_cant": "Unboundedly many schedules.", "anchors": ["stempy/reader.h: SectorStreamThreadedReader::readAll", "stempy/reader.cpp: SectorStreamThreadedReader::nextStream"]}
{"id": "C20", "title": "Multi-pass scan map is schedule independent and complete", "statement": "After the header pass, the scan map contains for every (position, frame number, sector) the file and offset of that sector's data exactly when the files contain it, whatever the thread interleaving.", "quantifier": "all file contents in which each (position, frame, sector) occurs at most once, all interleavings", "why_tests_cant": "Schedules and file contents are unbounded.", "anchors": ["stempy/reader.cpp: SectorStreamMultiPassThreadedReader::readHeaders"]}
{"id": "C21", "title": "Multi-pass workers claim each position exactly once", "statement": "Worker threads that claim scan positions from a shared atomic counter process every position in the range exactly once, for any number of workers and any interleaving.", "quantifier": "all ranges, all worker counts, all interleavings", "why_tests_cant": "Unboundedly many schedules.", "anchors": ["stempy/reader.h: SectorStreamMultiPassThreadedReader::processFrames", "readAll"]}
{"id": "C22", "title": "Multi-pass frame assembly", "statement": "The block produced for a scan position and frame contains the data of every sector recorded for it in its place and zero elsewhere, and is flagged complete if and only if four sectors are present.", "quantifier": "all scan maps and sector contents", "why_tests_cant": "Quantifies over all missing-sector patterns and contents.", "anchors": ["stempy/reader.h: processFrame"]}
{"id": "C23", "title": "loadFrames validates its arguments", "statement": "Loading frames by image number and frame index returns the requested frames in the requested order, and raises an error for any image number outside the scan or frame index beyond the frames recorded at that position; it never returns a wrong frame.", "quantifier": "all requests and scan maps", "why_tests_cant": "Quantifies over all requests.", "anchors": ["stempy/reader.h: readFrames, loadFrames"]}
{"id": "C24", "title": "Parallel electron counting counts every block exactly once", "statement": "In the threaded electron counter, each delivered frame contributes exactly one event list, at its own scan position, no matter how frames are split between the threshold-sampling phase and the counting phase and how workers interleave; the multiset of event lists per position equals that of the sequential computation.", "quantifier": "all frame deliveries, all interleavings, all sample counts", "why_tests_cant": "Schedules and phase-split points are unbounded.", "anchors": ["stempy/electron.cpp: electronCount (threaded)"]}
{"id": "C25", "title": "Every scan position ends with the same number of event lists", "statement": "After counting, all scan positions hold the same number of event lists, equal to the maximum number of frames at any position; padding adds only empty lists and changes no events.", "quantifier": "all event containers", "why_tests_cant": "Quantifies over all frame-count distributions.", "anchors": ["stempy/electron.cpp: electronCount padding loop"]}
{"id": "C26", "title": "Sampling does not lose frames", "statement": "Threshold estimation waits for exactly the requested number of complete sample frames; if fewer complete frames exist in the data the call cannot terminate (deadlock); otherwise it terminates under every fair schedule.", "quantifier": "all deliveries and schedules", "why_tests_cant": "Liveness over all schedules.", "anchors": ["stempy/electron.cpp: electronCount (threaded)"]}
{"id": "C27", "title": "Thresholding keeps exactly the values strictly between the thresholds", "statement": "After preprocessing, each pixel is either zero or the corrected value, and it is kept if and only if it is strictly greater than the background threshold and strictly less than the x-ray threshold. Dark subtraction of integer frames wraps modulo 65536 when the dark value exceeds the pixel.", "quantifier": "all frames, dark references and thresholds", "why_tests_cant": "Quantifies over all pixel values and thresholds, including wrap-around.", "anchors": ["stempy/electron.cpp: electronCount (per frame)", "applyRowDark"]}
{"id": "C28", "title": "Row-dark correction touches every pixel once", "statement": "Row-dark correction splits each row into two halves that partition the row, uses only pixels of that half-row for its statistic, and updates each pixel exactly once.", "quantifier": "all frame sizes", "why_tests_cant": "Odd widths and non-square frames; all sizes.", "anchors": ["stempy/electron.cpp: applyRowDark"]}
{"id": "C29", "title": "Events of a position depend only on frames of that position", "statement": "The event lists reported for a scan position are a function of the frames delivered for that position only; adding, removing or changing frames at other positions never changes them (for fixed thresholds).", "quantifier": "all deliveries differing at other positions", "why_tests_cant": "Two-run (non-interference) property over all inputs.", "anchors": ["stempy/electron.cpp: electronCount"]}
{"id": "C30", "title": "Python block reader partitions the data set", "statement": "Iterating a PyReader yields blocks whose image ranges are consecutive, disjoint and cover 0..total-1 exactly, then end-of-data; reset starts over.", "quantifier": "all totals and positive block sizes", "why_tests_cant": "Totals not divisible by the block size, all sizes.", "anchors": ["python/pyreader.cpp: PyReader::read, reset"]}
{"id": "C31", "title": "NumPy views address the right pixel", "statement": "The NumPy view of a Block returns element (i,y,x) of image i for every index in range. (Holds for square frames only: the strides use height where width is needed, so non-square frames are addressed wrongly and can be read out of bounds.) Views of Image and RadialSum are right for every size.", "quantifier": "all shapes and indices", "why_tests_cant": "Only square frames occur in tests.", "anchors": ["python/io.cpp: Block buffer protocol", "python/image.cpp: Image, RadialSum buffer protocol"]}
{"id": "C32", "title": "MPI file and position partitions", "statement": "For any number of ranks, the files and the scan positions are partitioned among ranks: each belongs to exactly one rank.", "quantifier": "all file counts, position counts and world sizes", "why_tests_cant": "All world sizes and remainders.", "anchors": ["stempy/reader_mpi.cpp: initMPI, partitionScanMap"]}
{"id": "C33", "title": "MPI sample distribution", "statement": "The numbers of sample blocks assigned to the ranks are not negative and add up to the number requested. (They are not fair: the last rank takes the whole remainder, so shares can differ by almost the number of ranks.)", "quantifier": "all totals and world sizes", "why_tests_cant": "All totals and sizes.", "anchors": ["stempy/electron_mpi.cpp: getSampleBlocksPerRank"]}
{"id": "C34", "title": "MPI gather equals the single-process result", "statement": "After the ranks have exchanged their scan maps every rank has the map one process reading all files would have; reading the scan on all ranks delivers every frame exactly once, each on the rank its position belongs to; and gathering the electron events gives rank 0, at every position, the events of all ranks in rank order, for any numbers of ranks and threads and any interleaving of threads, sends and receives.", "quantifier": "all recorded scans, numbers of ranks and threads, interleavings and message timings", "why_tests_cant": "All partitions and orders.", "anchors": ["stempy/reader_mpi.cpp: gatherScanMap", "stempy/electron_mpi.cpp: gatherEvents"]}
{"id": "C35", "title": "Block serialization round trip", "statement": "A block of fewer than 2^32 pixels sent between MPI ranks arrives with the same scan and frame size, frame number, image numbers and pixel data, and gathering the samples gives rank 0 its own followed by those of the others in rank order. (Version, timestamp, scan number and completeness flags are not transferred.)", "quantifier": "all blocks", "why_tests_cant": "All contents.", "anchors": ["stempy/reader_mpi.cpp: serialize"]}
{"id": "C36", "title": "Sparse array reductions equal dense reductions", "statement": "Sum, mean, min and max of a SparseArray over the scan axes or the frame axes equal the same NumPy reductions on the fully expanded array (whenever they return a value).", "quantifier": "all sparse arrays with in-range events", "why_tests_cant": "All event patterns, several frames per position, duplicates.", "anchors": ["python/stempy/io/sparse_array.py: sum, mean, min, max"]}
{"id": "C37", "title": "Scan binning", "statement": "bin_scans(f) followed by expansion equals summing f x f tiles of the expanded array over the scan axes.", "quantifier": "all arrays, all factors dividing the scan shape", "why_tests_cant": "All shapes, factors and event patterns.", "anchors": ["python/stempy/io/sparse_array.py: bin_scans"]}
{"id": "C38", "title": "Frame binning", "statement": "bin_frames(f) followed by expansion equals summing f x f tiles of the expanded frames. (Holds for square frames; false for non-square frames.)", "quantifier": "all arrays, all factors dividing the frame shape", "why_tests_cant": "Tests use square frames only.", "anchors": ["python/stempy/io/sparse_array.py: bin_frames"]}
{"id": "C39", "title": "Slicing a sparse array commutes with expansion", "statement": "Slicing sparsely then expanding equals expanding then slicing, for basic slices and duplicate-free advanced indices.", "quantifier": "all arrays and indices", "why_tests_cant": "All slices.", "anchors": ["python/stempy/io/sparse_array.py: _slice_sparse, _slice_dense"]}
{"id": "C40", "title": "Old electron-count formats convert without losing events", "statement": "Converting version-1 or version-2 electron data to the current format preserves, for every scan position and pixel, the total number of electron events.", "quantifier": "all version-1/2 data sets", "why_tests_cant": "All event lists, duplicates and position permutations.", "anchors": ["python/stempy/io/compatibility.py: convert_data_format"]}
{"id": "C41", "title": "Sparse array HDF5 round trip", "statement": "Writing a sparse array to HDF5 and reading it back gives the same events in the same position and frame slots, and removing the flyback column removes exactly the last column of each scan row.", "quantifier": "all sparse arrays", "why_tests_cant": "All shapes and contents.", "anchors": ["python/stempy/io/sparse_array.py: write_to_hdf5, from_hdf5"]}
{"id": "C42", "title": "Centre of mass: both algorithms agree", "statement": "The two versions of the sparse centre of mass return bit-identical results for every event list (duplicates included, with and without the power-of-two fast path), uncropped or cropped around a given centre, and each result is the mean column and mean row of the kept events, rounded to double and then single precision; positions without kept events are NaN unless NaNs are replaced; for square frames it is the centre of mass of the expanded frame. (False for frames that are not square, for arrays without frames, and for cropping around the frame's own centre.)", "quantifier": "all sparse arrays of two-dimensional scans, frame shapes up to 2^24 a side, crop radii and centres", "why_tests_cant": "All event patterns and frame widths.", "anchors": ["python/stempy/image/__init__.py: com_sparse, _com_sparse_v0, com_v1_kernel"]}
{"id": "C43", "title": "Argument validation of STEM creation", "statement": "createSTEMImages raises an error exactly when the inner and outer radius lists are empty or of different lengths (or no scan size is available), before touching any data.", "quantifier": "all radius lists", "why_tests_cant": "All list lengths.", "anchors": ["stempy/image.cpp: createSTEMImages", "stempy/image.h: createSTEMImages"]}
{"id": "C44", "title": "Truncated or unknown input is reported", "statement": "Reading a stream file cut in the middle of its last record raises an error (never returns a short or partially filled block) when it is the last file; an unknown format version is rejected.", "quantifier": "all record contents and all cut points", "why_tests_cant": "All crash points of the writer.", "anchors": ["stempy/reader.cpp: StreamReader::read"]}
{"id": "C45", "title": "Every reported event lies strictly between the thresholds", "statement": "For an unsigned 16-bit frame of at least two pixels, every pixel index the electron counter reports has a dark-corrected value strictly greater than the background threshold and strictly less than the x-ray threshold. (For a 1x1 frame the only pixel is always reported, whatever its value.)", "quantifier": "all frames of width and height up to 65535 with at least two pixels, all dark references and thresholds (background threshold >= 0)", "why_tests_cant": "the claim is about every pixel of every frame; the exception (one-pixel frames) is exactly the sort of corner a test suite misses", "anchors": ["stempy/electron.cpp:electronCount", "stempy/electron.cpp:maximalPoints"]}
{"id": "C46", "title": "Reported events are isolated", "statement": "No two reported events of a frame are equal or 8-neighbours of each other, so a frame of w x h pixels has at most ceil(w/2)*ceil(h/2) events.", "quantifier": "all frames of width and height up to 65535", "why_tests_cant": "it bounds the output for all inputs; tests only see a few frames", "anchors": ["stempy/electron.cpp:maximalPoints"]}
{"id": "C47", "title": "Events depend only on the order of the pixel values", "statement": "Two frames of the same size whose pixels compare the same way (e.g. one is a strictly increasing rescaling of the other) have exactly the same events.", "quantifier": "all pairs of order-equivalent frames", "why_tests_cant": "it relates two runs on arbitrary frames", "anchors": ["stempy/electron.cpp:maximalPoints"]}
{"id": "C48", "title": "Iterator-based counting keeps the last frame of a position", "statement": "The iterator-based (classic) electron counter returns exactly one event list per scan position: that of the last frame delivered for the position, or an empty list if none was delivered; for data with several frames per position all but the last are overwritten.", "quantifier": "all sequences of well-formed blocks of equal frame size with in-range positions", "why_tests_cant": "must hold for every delivery, including repeated positions", "anchors": ["stempy/electron.cpp:electronCount(InputIt first, InputIt last, ...)"]}
{"id": "C49", "title": "Counting several frames per position from the calling thread is race free", "statement": "While workers count blocks, the calling thread counts the sample and incomplete blocks; no two threads modify the event list of one scan position at the same time. (False as soon as a position has two frames: the calling thread takes no position lock.)", "quantifier": "all deliveries, worker counts and interleavings", "why_tests_cant": "a data race shows up only in rare interleavings", "anchors": ["stempy/electron.cpp:electronCount(Reader*, ...)::countExtraBlock"]}
{"id": "C50", "title": "Masked diffraction pattern", "statement": "The diffraction pattern of a real-space mask is, pixel by pixel, the sum of the expanded data over the scan positions the mask selects, in the array's integer type; a mask of ones gives the sum over the scan, a mask and its complement give every electron once, and a mask of another shape is refused.", "quantifier": "all well-formed sparse arrays with a two-dimensional scan and all masks", "why_tests_cant": "the selection is arbitrary and the counts depend on every event", "anchors": ["python/stempy/image/__init__.py:mask_real_space"]}
{"id": "C51", "title": "Summed diffraction pattern of counted data", "statement": "The summed pattern counts every listed electron once per listing (lists of events) and equals the sum of the expanded data over the scan (sparse arrays); an event outside the given frame raises instead of being dropped.", "quantifier": "all event lists and all well-formed sparse arrays", "why_tests_cant": "must hold for every event list, including repeated and out-of-range events", "anchors": ["python/stempy/image/__init__.py:calculate_sum_sparse"]}
{"id": "C52", "title": "Virtual dark field", "statement": "Every pixel of the virtual dark-field image is the number of electrons strictly inside the given round apertures, summed over the apertures. (False for frames that are not square, for centres far outside the frame, and the two centre arguments are swapped with respect to the documentation.)", "quantifier": "all well-formed sparse arrays and all lists of apertures", "why_tests_cant": "must hold for every event, aperture and overlap", "anchors": ["python/stempy/image/__init__.py:virtual_darkfield"]}
{"id": "C53", "title": "Radial sum of sparse data", "statement": "Bin k of the radial sum counts the electrons of a position at distance [k, k+1) from the centre, the bins together count each electron within the largest radius exactly once. (The last bin also contains electrons at the upper edge.)", "quantifier": "all well-formed sparse arrays, all integer centres", "why_tests_cant": "rounding of the square root at bin edges must be right for every pixel and centre", "anchors": ["python/stempy/image/__init__.py:radial_sum_sparse"]}
{"id": "C54", "title": "Repair of bad centre-of-mass values", "statement": "Replacing bad sectors leaves positions within the cutoffs unchanged, replaces a bad position by the median of the numbers next to it in both components, and leaves no horizontal value outside the cutoffs. (Positions in the first row and column become NaN instead.)", "quantifier": "all maps of bounded numbers or NaN, all cutoffs", "why_tests_cant": "replaced values feed later replacements, so the claim is inductive over the order of positions", "anchors": ["python/stempy/image/__init__.py:filter_bad_sectors"]}
{"id": "C55", "title": "Casting of gain and dark references loses nothing", "statement": "A cast reference array has exactly the given values or the call raises ValueError. (Consequently gains whose inverse is not a single precision number cannot be used.)", "quantifier": "all arrays of double precision numbers up to 2^90", "why_tests_cant": "must hold for every value, including those at rounding boundaries", "anchors": ["python/stempy/image/__init__.py:_safe_cast", "python/stempy/image/__init__.py:electron_count"]}
{"id": "C56", "title": "electron_count returns an array that counts the electrons", "statement": "The array electron_count returns is well formed, has the scan's rows and columns, and its expansion holds, at every scan position and pixel, the number of frames recorded for that position in which the pixel, after dark subtraction and thresholding, is greater than all its neighbours. (For frames that are not square the frame axes have the wrong lengths.)", "quantifier": "all scan and frame sizes, all sets of blocks with fewer than 2^32 frames, all numbers of threads and interleavings", "why_tests_cant": "relates every possible detector output and thread schedule to every entry of the returned array", "anchors": ["python/stempy/image/__init__.py:electron_count", "stempy/electron.cpp:electronCount", "python/stempy/io/sparse_array.py:SparseArray"]}
{"id": "C57", "title": "Threshold calculation samples stored frames, corrected for dark and gain", "statement": "The pixels the threshold calculation is based on are exactly the pixels of as many frames as requested, each stored in one of the given blocks, minus the dark reference without fractions (16 bit arithmetic), or with gain the dark corrected value times the gain, without fractions; nothing outside the blocks is read, and every choice of frames is possible. (Pixels below their dark level wrap to large values; with gain they, and without gain dark levels of 32768 or more, are undefined; fractions of gain corrected values are lost.)", "quantifier": "all block lists, frame sizes, pixel values, references, numbers of samples and sequences of random numbers", "why_tests_cant": "the sample is random; every sequence of random numbers and every frame must be covered", "anchors": ["stempy/electronthresholds.cpp:calculateThresholds"]}
{"id": "C58", "title": "Threshold statistics are accurate", "statement": "The reported mean is the exact mean of the samples rounded once to double precision, and the reported variance is the sample variance with a relative error of at most 2^-19. (A single sampled pixel is undefined behaviour.)", "quantifier": "all lists of fewer than 2^31 16 bit samples", "why_tests_cant": "error bound over all sample values and lengths", "anchors": ["stempy/electronthresholds.cpp:calculateMean", "stempy/electronthresholds.cpp:calculateVariance"]}
{"id": "C59", "title": "Threshold calculation is defined and consistent with its samples", "statement": "If every stored frame after dark subtraction has at least two pixels, a sample variance of at least 3 and values small enough for the bin limits, then for every choice of frames and every behaviour of the fit the calculation returns or reports that the fit did not converge; the fitted histogram counts each sample value exactly from the smallest sample up to its limit, the X-ray threshold is mean plus n deviations and not below the mean, the background threshold is the fitted mean plus n fitted deviations and not below the fitted mean. (One dim pixel, equal pixels, or black and saturated pixels lead to undefined behaviour; the brightest value has no bin.)", "quantifier": "all block lists, references, sample numbers, random numbers, and all results of the fit", "why_tests_cant": "out-of-bounds writes depend on rare random draws; must hold for every draw and every data set", "anchors": ["stempy/electronthresholds.cpp:calculateThresholds"]}
{"id": "C60", "title": "Counting straight from the files of a scan", "statement": "Electron counting with the multi-pass reader, if it returns, has computed its thresholds from the asked number of different four-sector frames and reports one list of events per recorded frame at its own position; wrapped as an array, every entry is the number of recorded frames of that position whose assembled image has a peak there. With one frame per position, enough complete frames and a scan size that covers the files, no schedule is undefined or raises, every schedule is bounded and none is stuck before the result is returned, and the events do not depend on threads or schedule once the thresholds are fixed. With too few complete frames no schedule returns.", "quantifier": "all recorded scans, distributions over files, numbers of threads, frame loads before, and all interleavings of the reader's threads, the counting inside them and the calling thread", "why_tests_cant": "the reader and the counter share threads; the property ranges over all interleavings and all recordings", "anchors": ["stempy/electron.cpp:electronCount", "stempy/reader.h:SectorStreamMultiPassThreadedReader::readAll", "stempy/electron.h:electronCount"]}
{"id": "C61", "title": "When counting cannot return", "statement": "Electron counting with the threaded (single-pass) reader never returns, for any recording and schedule, and whenever a frame has four sectors some schedule reads a missing completeness flag, which is undefined. Counting a second time with one multi-pass reader never returns, for any recording and schedule. So not every reader that electron counting accepts can be counted, and none of these twice.", "quantifier": "all recordings, numbers of threads and schedules", "why_tests_cant": "absence of any returning schedule is universal", "anchors": ["stempy/electron.cpp:electronCount", "stempy/reader.h:SectorStreamThreadedReader::readAll", "stempy/reader.h:SectorStreamMultiPassThreadedReader::readAll"]}
{"id": "C62", "title": "Reading chosen frames of a scan position from Python", "statement": "read_frames(position, frames_slice) of the multi-pass reader, after any calls and for every schedule of its workers, returns the blocks of exactly the frames that the slice, integer, list or mask takes of the frames recorded at that position (ordered by frame number; position given as (row, column) or flattened), in the order of the selection; one block for an integer index. It raises for positions outside the scan, for indices outside the largest number of frames per position, and for selected frames the position does not have. Documented but false: frames_slice=None returns all frames - it raises at every position with fewer frames than another one.", "quantifier": "all recorded scans, positions, indices (integers, slices with any start, stop and step, integer lists, boolean masks), earlier calls, thread counts and schedules", "why_tests_cant": "ranges over all recordings, all index objects and all histories of calls on one reader", "anchors": ["python/stempy/io/__init__.py:SectorThreadedMultiPassReader.read_frames", "stempy/reader.h:SectorStreamMultiPassThreadedReader::numFramesPerScan", "stempy/reader.h:SectorStreamMultiPassThreadedReader::loadFrames", "python/io.cpp:_load_frames"]}
{"id": "C63", "title": "STEM images of saved raw data", "statement": "Raw frames passed to save_raw_data with scan dimensions and, optionally, scan positions are stored element by element whatever the memory layout of the array; create_stem_images on the open file then gives, for every annulus and every schedule, at the position of each frame the sum of its pixels inside the annulus and zero at positions without a frame. A scan_dimensions argument overrides the stored one; a file without stored dimensions uses the shape of its STEM images. A second save to the same file raises and changes nothing. Passing the array directly to create_stem_images gives the same images for C-contiguous arrays. False: that it does so for every array - other memory layouts are read in memory order.", "quantifier": "all arrays of any shape and strides, scan sizes, distinct positions, lists of radii, centres and thread schedules", "why_tests_cant": "ranges over all arrays and layouts, position lists, block boundaries and schedules of the pool", "anchors": ["python/stempy/io/__init__.py:save_raw_data", "python/stempy/io/__init__.py:get_hdf5_reader", "python/stempy/image/__init__.py:create_stem_images", "python/pyreader.cpp:PyReader::read", "stempy/image.cpp:createSTEMImages"]}
{"id": "C64", "title": "STEM images of event arrays from Python", "statement": "create_stem_images of a SparseArray, an ElectronCountedData tuple with one event array per position, or a NumPy array of events with frame_dimensions gives at every position 65535 times the number of its events inside the annulus; for a SparseArray with square frames that is 65535 times the annulus sum of the expanded dense array. The array returned by electron_count gives the images of its own data through the C++ object it carries. False: that frames need not be square (frame_shape is passed unreversed), and that the images of an array changed in place describe the array (the C++ object is stale after bin_scans, bin_frames or reshape in place).", "quantifier": "all well-formed arrays, scan and frame sizes, radii, centres; all in-place operations", "why_tests_cant": "ranges over all event arrays and histories of in-place operations", "anchors": ["python/stempy/image/__init__.py:create_stem_images", "python/stempy/image/__init__.py:electron_count", "stempy/image.h:createSTEMImages", "python/stempy/io/sparse_array.py:bin_scans"]}
{"id": "C65", "title": "Counting electrons with a plain reader", "statement": "electron_count with an io.Reader over stream files or a reader over a NumPy array gives an array that is 1 exactly at the pixels of the last frame of each position that, after dark subtraction, optional gain and clipping at the two thresholds in single precision, are greater than all their neighbours, and 0 elsewhere. The thresholds come from the threshold_num_blocks blocks after the reader's position, whatever was read or reset before; then all blocks are counted. After a reset the result is that of a new reader. If fewer blocks remain StopIteration is raised; so does every second count without a reset in between. Without a dark reference (the default) the behaviour is undefined. False: that pixels below the dark level are harmless, and that a SectorReader gives the electrons of its frames (its reset keeps a partial frame).", "quantifier": "all readers that deliver a data set, all histories of reads and resets, all data sets, references, thresholds and random choices", "why_tests_cant": "ranges over all reader histories, data sets, references and sample choices, with exact rounding of every pixel", "anchors": ["python/stempy/image/__init__.py:electron_count", "stempy/electron.cpp:electronCount", "python/image.cpp:ElectronCountOptionsClassicPy", "stempy/reader.cpp:StreamReader::read", "python/pyreader.cpp:PyReader::read"]}
{"id": "C66", "title": "Finding the file of a scan", "statement": "get_scan_path on a directory of scan files and unrelated files returns, for new file names, exactly the one file with the id (or scan number) and kind asked for, with the scan number and id its name says; FileNotFoundError if there is none, ValueError if there are several; other files, other kinds and old names never matter. Without a version the old names are tried only if no new name fits. Old names by number and threshold are found exactly; by id or number alone they are found if no other id or number begins with the same digits. False for old names in general: id 1 returns the file of id 12, and a unique id can be ambiguous. False: that both number and id are used when both are given; that a scan with a six-digit number is found by id.", "quantifier": "all directories of well-formed names, all ids, numbers, thresholds and kinds", "why_tests_cant": "ranges over all directories, numbers of any length and kinds of files", "anchors": ["python/stempy/contrib/__init__.py:get_scan_path", "python/stempy/contrib/__init__.py:get_scan_path_version_0", "python/stempy/contrib/__init__.py:get_scan_path_version_1"]}
{"id": "C67", "title": "Images made from a reader", "statement": "calculate_average, maximum_diffraction_pattern, radial_sum and create_stem_histogram with a Reader, SectorReader or PyReader in any state use exactly the frames that have not been read since the last reset: the average is the double nearest to the mean of the pixel, the maximum its largest value, the radial sums those of the rings, the histograms those of the virtual detector images, whatever the schedule; a reset gives the result of a new reader. A second call without reset silently gives an empty 0 x 0 average or maximum, or an error. False: that maximum_diffraction_pattern takes a dark reference; it always raises.", "quantifier": "all readers, all histories of read and reset calls, all frames and sizes, all schedules of the pool", "why_tests_cant": "ranges over all histories of the reader, all frames and all schedules", "anchors": ["python/stempy/image/__init__.py:calculate_average", "python/stempy/image/__init__.py:radial_sum", "python/stempy/image/__init__.py:maximum_diffraction_pattern", "python/stempy/image/__init__.py:create_stem_histogram", "python/image.cpp:maximum_diffraction_pattern"]}
{"id": "C68", "title": "The dark reference given to electron_count", "statement": "electron_count with a plain reader subtracts the dark reference it is given: an average of calculate_average whose pixels are single-precision numbers, in particular any average of 1, 2, 4 ... 256 frames; an array of the user; an average changed in place. False in general: averages of an odd number of frames whose pixel sums are not multiples of it raise ValueError; an array derived from an average element by element (scaled, rounded) is ignored in favour of the original average; an ImageArray made by its constructor is ignored; an array in Fortran order is subtracted transposed.", "quantifier": "all dark frames and readers in any state, all arrays, all frames to count, all thresholds and seeds", "why_tests_cant": "ranges over all frame counts, sums and memory layouts; whether a call fails depends on the values", "anchors": ["python/stempy/image/__init__.py:electron_count", "python/stempy/image/__init__.py:ImageArray", "python/stempy/image/__init__.py:_safe_cast", "python/image.cpp:calculate_thresholds"]}
{"id": "C69", "title": "Phase from the centre of mass", "statement": "phase_from_com integrates: given the slopes (down, right) at the pixels of a smooth periodic surface with more than two pixels per period, it returns the surface minus its mean, exactly without regularisation and otherwise with each wave weakened by a stated factor and a total error of at most (reg n^2 / 2 pi)^2 times the amplitude; for odd image sides every image is such a surface. For every measurement it is linear, ignores a constant shift of the centre of mass, has mean zero, ignores the rotational part, and undoes the rotation and mirroring it is told of. False: that the result of com_sparse can be given as it is when the axes are aligned (com_sparse returns the horizontal component first, phase_from_com takes the vertical one first; theta = pi/2 with flip is right). False: that a wave of two pixels per period is seen.", "quantifier": "all image shapes, all surfaces and measurements, all angles and regularisation parameters (real arithmetic)", "why_tests_cant": "ranges over all measurements, shapes and real parameters", "anchors": ["python/stempy/image/__init__.py:phase_from_com", "python/stempy/image/__init__.py:com_sparse"]}
{"id": "C70", "title": "The fit of the background", "statement": "The function minimised by the threshold calculation is the squared difference between the histogram and a normal curve, and the matrix given to the solver holds its exact partial derivatives. The sign of the fitted deviation does not matter. If the histogram lies on a normal curve, the curve is a minimum and, with at least three bins, every minimum gives the threshold of that curve; with three bins the matrix has independent columns at every state with non-zero amplitude and deviation. False: that two bins are enough.", "quantifier": "all histograms and bins, all states with a non-zero deviation (real arithmetic)", "why_tests_cant": "derivatives and minima range over all real parameters and all histograms", "anchors": ["stempy/electronthresholds.cpp:GaussianErrorFunctor", "stempy/electronthresholds.cpp:calculateThresholds"]}
{"id": "C71", "title": "The HDF5 wrapper closes what it opens", "statement": "Whatever the HDF5 library fails at, every call of the HDF5 reading and writing interface leaves exactly the library identifiers open that were open before and restores the error handler; it closes nothing twice and nothing it did not open. A program that opens a file, makes any calls and destroys the object ends with nothing open. The exception is setting a text attribute, which leaves at most one datatype open per call. False: that setting texts leaves nothing open; that a type that cannot be looked up is reported as none; that asking for one value of an attribute with several is safe.", "quantifier": "all files, all sequences of calls with all arguments, all patterns of failures of the library's calls", "why_tests_cant": "the property ranges over every combination of failing library calls and every sequence of calls", "anchors": ["h5cpp/h5readwrite.cpp:H5ReadWrite", "h5cpp/hidcloser.h:HIDCloser"]}
{"id": "C72", "title": "The HDF5 wrapper reads what was written", "statement": "Writing a data set or an attribute that reports success has stored exactly the given values with the given dimensions and type, and nothing else in the file is changed; reading them again gives these values. Reading a region gives, in row-major order, the elements at start + k * stride; updating a region replaces exactly these elements. Groups and data sets are listed completely. All this holds whatever library calls fail: what is returned is right or the call reports failure, and without failures a call succeeds exactly if it can. False: that a failed write leaves the file as it was (a data set of zeros stays); that reading with strides and no counts reads all elements it could; that an impossible region is refused; that another type is refused when the comparison of types fails; that an empty attribute that was refused is not there; that failures while listing a group are reported.", "quantifier": "all files, names, types, dimensions, values and regions, all patterns of failures of the library's calls", "why_tests_cant": "ranges over all array shapes and regions and every combination of failing library calls", "anchors": ["h5cpp/h5readwrite.cpp:H5ReadWrite::writeData", "h5cpp/h5readwrite.cpp:H5ReadWrite::readData", "h5cpp/h5readwrite.cpp:H5ReadWrite::updateData", "h5cpp/h5readwrite.cpp:H5ReadWrite::setAttribute", "h5cpp/h5readwrite.cpp:H5ReadWrite::children"]}
{"id": "C73", "title": "An HDF5 export that returns is complete", "statement": "Exporting a scan to an HDF5 file, in both formats, over a library whose calls may fail in any pattern: if the export returns, every frame the reader delivered is in the data set at its position, with the right dimensions and type, zeros where there is no frame; reading the region of a position from the file gives the frame. If it throws, the data set (if there is one) holds the frames of some first part of the scan. In both cases nothing stays open. If nothing fails, the positions are in the scan and the reader does not throw, it returns and the scan dimensions and the empty data set of images are there too. False: that an export that returned has stored the scan dimensions and made the data set of images; that an export without frames reports that the file could not be created; that a failed export leaves the old file as it was.", "quantifier": "all scans, frames, sector files and formats, all patterns of failures of the library's calls, readers that throw at any point", "why_tests_cant": "ranges over every combination of failing library calls and every point at which the reader can throw", "anchors": ["stempy/reader.cpp:SectorStreamReader::toHdf5", "stempy/reader.cpp:SectorStreamReader::toHdf5FrameFormat", "stempy/reader.cpp:SectorStreamReader::toHdf5DataCubeFormat"]}
{"id": "C74", "title": "The sector of a file is told by its name", "statement": "A reader of sector files takes the sector of a file from its path: it is the last number that stands directly behind 'module' and before some '.data', with or without leading zeros; -1 if there is none, an exception if it does not fit an int. So for the usual names, any directory and beginning, 'module', the number, something without a second 'module', '.data', it is that number. False: that the number comes from the name of the file and not from its directory, and that the name must end in '.data'.", "quantifier": "all paths without line breaks, all numbers, any number of leading zeros", "why_tests_cant": "ranges over all names; greedy matching with backtracking makes the result depend on everything that follows", "anchors": ["stempy/reader.cpp:extractSector", "stempy/reader.cpp:SectorStreamReader::openFiles"]}
{"id": "C75", "title": "Opening a scan in Python and looping over it", "statement": "reader() returns a reader or raises. It refuses unknown backends, the multi-pass reader for version 4, unknown options of the threaded readers, empty lists of files, any sector file that cannot be opened, and a first stream file that cannot be opened. A for loop over the reader of a stream of version 1, 2 or 3, in one file or several, sees exactly the blocks of its records, a second loop sees nothing, and after any use and a reset a loop sees all of them again; if the last file breaks off in a record, the loop sees the blocks before it and then an exception. A loop over sector files sees one block per scan position, made of the sectors the file names tell, and again after a reset. A loop over the reader of a file written by save_raw_data sees the saved frames in their order in blocks of 32, with their positions and the scan. False: that a loop over a version 1 stream goes on after a record whose header gives version 0; that threaded and multi-pass readers can be looped over; that backends and options which are not used are reported; that sector files whose names have no number are refused.", "quantifier": "all files, paths, versions, backends, options, records, sectors in any order, saved arrays, and histories of reads and resets", "why_tests_cant": "ranges over every sequence of calls, split into files and combination of arguments", "anchors": ["python/stempy/io/__init__.py:reader", "python/stempy/io/__init__.py:ReaderMixin", "python/io.cpp:_reader", "stempy/reader.cpp:SectorStreamReader::openFiles"]}
{"id": "C76", "title": "Pipeline decorators list and fill in the declared parameters", "statement": "A function written under any stack of pipeline() and parameter() decorators lists every declared parameter once in PARAMETERS, described as in its topmost declaration, in order of declaration from the function upwards, and has the attributes of the topmost pipeline(). A call of it runs the function with the arguments of the call and, for every declared parameter that the call does not name by keyword, with the default of its topmost declaration; it raises TypeError exactly if Python has no reading of these arguments. Decorating another function changes none of this, and no later decoration changes what a call does. False: that a declared parameter can be given by place (TypeError always), that a declared parameter the function does not take is reported at its declaration (every call fails), and that two pipelines made of one function have their own lists of parameters (each lists those of both).", "quantifier": "all programs of definitions and decorations, all stacks, signatures and calls", "why_tests_cant": "ranges over every stack, order of decoration, signature and combination of arguments; sharing shows only in histories", "anchors": ["python/stempy/pipeline/__init__.py:pipeline", "python/stempy/pipeline/__init__.py:parameter"]}
{"id": "C77", "title": "One HDF5 file holds what was saved to it first", "statement": "For any history of save_electron_counts, save_raw_data and save_stem_images on one new HDF5 file: a call returns exactly if its arguments are in order (two-dimensional scan and frames, one name for each STEM image) and no earlier call has taken its place, and raises otherwise; afterwards load_electron_counts returns the counted array saved first with its metadata and raises if there was none, the reader of the file gives the raw data saved first with its positions and its scan (or else the scan of the STEM images saved first, or else an exception), and the STEM images and names are those saved first, whatever else was saved before, between or after. What can be loaded from a file of the present version stays the same under any later saves. False: that a save which raises leaves the file as it was: onto a file of an older version it sets the version first, and the old events are then read by the new rules; an array with a one-dimensional scan raises but leaves a file that can neither be loaded nor be given any counted array.", "quantifier": "all histories of saves in any order, with any arguments, including those that raise", "why_tests_cant": "ranges over every history of calls on one file and what each exception leaves behind", "anchors": ["python/stempy/io/__init__.py:save_raw_data", "python/stempy/io/__init__.py:save_stem_images", "python/stempy/io/__init__.py:save_electron_counts", "python/stempy/io/__init__.py:get_hdf5_reader", "python/stempy/io/sparse_array.py:write_to_hdf5", "python/stempy/io/sparse_array.py:from_hdf5"]}
{"id": "C78", "title": "Reductions of a sparse array over any axes are those of the dense array", "statement": "For every axis argument of SparseArray.max, min and sum (None, 'scan', 'frame', a number, a list of numbers in any order, negative, repeated or out of range): the call gives the shape and values, or the exception, that NumPy gives for the same reduction of to_dense(), provided full expansion is allowed or the axes are exactly those of the scan or of the frame; for sum with a result type this needs nothing else, without one the number of events must fit the type of the array, and for max and min over the whole scan or frame the array must not be empty (and for max over the frame every position must have an event). If full expansion is not allowed and the axes are others the call raises, whatever they are. The order of the axes makes no difference, and no call changes the array or its settings. False: that axes named by negative numbers behave as the same axes named by positive ones when full expansion is not allowed; that a result type works for max and min over other axes; that without a result type sums over the scan and over other axes are taken in the same type.", "quantifier": "all well-formed sparse arrays of any shape and content, all axis arguments, all result types", "why_tests_cant": "ranges over every array, every tuple of axes and every wrap-around of the accumulator", "anchors": ["python/stempy/io/sparse_array.py:_format_axis", "python/stempy/io/sparse_array.py:_default_full_expansion", "python/stempy/io/sparse_array.py:SparseArray.max", "python/stempy/io/sparse_array.py:SparseArray.min", "python/stempy/io/sparse_array.py:SparseArray.sum", "python/stempy/io/sparse_array.py:SparseArray.scan_axes", "python/stempy/io/sparse_array.py:SparseArray.frame_axes"]}
{"id": "C79", "title": "Counting with a threaded reader, from the recorded pixels to the array and its metadata", "statement": "For every delivery of frames to electron_count with a threaded reader, every schedule of its threads, every dark and gain reference and every outcome of the fit: when the call returns, the thresholds were calculated once, from exactly the number of complete frames asked for, and all frames, those samples included, were counted with them. The returned array is well formed, has the shape (scan height, scan width, frame width, frame height), and the number at each scan position and pixel is the number of frames of that position for which, after subtracting the dark level (without a gain: its integer part, modulo 65536; with a gain: rounded to float32), multiplying by the gain (rounded to float32) and setting to zero what is not strictly between the two thresholds, the pixel is greater than each of its up to eight neighbours. The metadata hold exactly the thresholds and statistics used. The same holds for the multi-pass reader over any set of recorded sector files, and with MPI every rank counts with the thresholds the root calculated. False: that the metadata of an array counted with a classic reader hold the thresholds used (they always say that thresholds were calculated and are zero); that the metadata on ranks other than the root do; that a classic and a threaded reader count alike when a dark level is not an integer.", "quantifier": "all frames and recorded files, all thread counts and schedules, all dark and gain references within 2^40, all fit results, all MPI world sizes", "why_tests_cant": "ranges over schedules, file contents, floating point references and the solver's results", "anchors": ["stempy/electron.cpp:electronCount", "stempy/electron_mpi.cpp", "stempy/electron.h:ElectronCountedMetadata", "python/image.cpp", "python/stempy/image/__init__.py:electron_count"]}
{"id": "C80", "title": "The mean of a sparse array over any axes is that of the dense array", "statement": "For every axis argument of SparseArray.mean (None, 'scan', 'frame', a number, a list of numbers in any order, negative ones included) that names valid axes, provided full expansion is allowed or the axes are exactly those of the scan or of the frame: the result has the shape the dense array has without those axes, and each of its values is the sum of the dense entries along the axes divided by their number, correctly rounded to float32, as long as sum and number are at most 2^24, in whatever order NumPy adds up. When all axes are reduced the result is a scalar in double precision, correctly rounded. If full expansion is not allowed and the axes are others the call raises, whatever they are; invalid axes raise as in NumPy; and no call changes the array or its settings. False: that an integer result type can be asked for: the call raises unless all axes are reduced.", "quantifier": "all well-formed sparse arrays of any shape and content, all axis arguments, all orders of summation, all integer result types", "why_tests_cant": "ranges over every array, every tuple of axes and every order in which floating point numbers are added", "anchors": ["python/stempy/io/sparse_array.py:SparseArray.mean", "python/stempy/io/sparse_array.py:SparseArray.sum", "python/stempy/io/sparse_array.py:_format_axis", "python/stempy/io/sparse_array.py:_default_full_expansion"]}
{"id": "C81", "title": "Whatever is done with a sparse array, it holds what the same calls leave in a dense array", "statement": "Take a SparseArray and the dense array of its values, and make any sequence of calls on the one: reshape, ravel_scans, bin_scans, bin_frames, selecting a part and going on with it, changing sparse_slicing or allow_full_expand, and reading (to_dense, indexing, max, min, sum, mean). Calls that raise are part of the sequence. Then shape, settings and values of the sparse array are those the same sequence leaves in the dense array, where a raising call changes nothing, binning sums tiles and selecting follows NumPy. Reading never changes the array. So after the sequence the sums over any axes and the selections are those of the dense array, and two sparse arrays with the same values cannot be told apart however their events are divided into frames. Negative dimensions, non-square frames in bin_frames, repeated frame indices, surplus keys and counts beyond the integer type are excluded; for negative dimensions and surplus keys it is proved that the code accepts what it should refuse.", "quantifier": "all well-formed sparse arrays of any shape and content, and all finite sequences of calls with any arguments within the stated conditions", "why_tests_cant": "ranges over every array and every history of calls", "anchors": ["python/stempy/io/sparse_array.py:SparseArray.reshape", "python/stempy/io/sparse_array.py:SparseArray.ravel_scans", "python/stempy/io/sparse_array.py:SparseArray.bin_scans", "python/stempy/io/sparse_array.py:SparseArray.bin_frames", "python/stempy/io/sparse_array.py:SparseArray.__getitem__", "python/stempy/io/sparse_array.py:SparseArray.to_dense"]}
{"id": "C82", "title": "Saving and opening a sparse array in the middle of any work on it", "statement": "Work on a SparseArray in any number of sessions: each saves the array with write_to_hdf5 to a new file, opens the file with SparseArray.from_hdf5 and then makes any sequence of the calls of C81. Every save and every opening succeeds, and at the end the array has the shape, the values and the settings that the same work leaves in the dense array, where an opening changes nothing but the settings given to it and, with keep_flyback=False, leaves out the last column of the scan. When the last column is kept, the files make no difference: the result is that of all the calls made on one array in one go. The arrays saved have two-dimensional, non-empty scans and two-dimensional frames with at most 2^32 pixels; an array whose scan has been flattened cannot be saved, which is proved for all arrays and histories.", "quantifier": "all well-formed sparse arrays of any shape and content, all numbers of sessions, all metadata, and all sequences of calls in each session within the conditions of C81", "why_tests_cant": "ranges over every array and every history of calls, saves and openings", "anchors": ["python/stempy/io/sparse_array.py:SparseArray.write_to_hdf5", "python/stempy/io/sparse_array.py:SparseArray.from_hdf5"]}
{"id": "C83", "title": "No call on a sparse array loses or invents electrons", "statement": "The number of electrons in a SparseArray is the sum of all its dense values, which is the number of events in its frames. It is the same before and after any sequence of reshape, ravel_scans, bin_scans, bin_frames, changes of the settings and reads, calls that raise included, and after saving and opening the array in between any number of times (with the last column kept). With selections in the sequence that take no scan position and no pixel twice, it is never greater than before.", "quantifier": "all well-formed sparse arrays of any shape and content, all sequences of calls within the conditions of C81, any number of sessions", "why_tests_cant": "ranges over every array and every history of calls", "anchors": ["python/stempy/io/sparse_array.py:SparseArray.bin_scans", "python/stempy/io/sparse_array.py:SparseArray.bin_frames", "python/stempy/io/sparse_array.py:SparseArray.reshape", "python/stempy/io/sparse_array.py:SparseArray.__getitem__"]}
