# vIQA in Rocq: what is modelled, how it is proved

The code in `/repo` (python, one C extension) is read as text; nothing is run.
For each area there are three kinds of file under `rocq/theories/`:

* `XxxModel.v`: executable Gallina functions mirroring the python functions branch by
  branch (exceptions are values, see `Base.res`). Each definition cites file and lines.
  No proofs.
* `XxxProofs.v`: the lemmas and the small specifications they are stated against.
* `XxxProps.v`: only the property theorems (`Theorem … exact lemma.`), each followed by
  `Print Assumptions`, and `Example`s showing that the hypotheses are met by a concrete
  non-trivial case.

Theorems ending in `_refuted` prove that an expectation of the user (from the
documentation or the README) is false of the code, by an explicit witness. They always
come with the positive statement that does hold. Theorems ending in `_partial` prove
less than the property text says; the missing part is named beside them.

## Trusted base

* Coq 8.16.1's kernel.
* The axioms listed by `Print Assumptions` under each property theorem. Theorems over
  integers, lists and strings are closed under the global context. Theorems over real
  numbers use the standard library's axioms for `Reals`
  (`ClassicalDedekindReals.sig_forall_dec`, `ClassicalDedekindReals.sig_not_dec`,
  `FunctionalExtensionality.functional_extensionality_dep`), and some of them
  `Classical_Prop.classic`. No axiom is added by this development.
* The reading of the python/C source. Every model definition cites the lines it models.
* Assumptions about libraries the code calls (numpy and numpy.ma, scipy with its Fourier
  transforms, skimage, piq, csv, re, matplotlib, ipywidgets). They
  are either written out as definitions (then the definition is the assumption), or taken
  as universally quantified function arguments, in which case the theorem holds for every
  behaviour of the library function. They are never axioms.

## Abstractions used throughout

* **Arrays** (`NdArray.v`): a shape and a row-major list of elements, any number of
  dimensions.
* **Floating point**: metric formulas are modelled over the exact real numbers; rounding
  is not modelled there. Where rounding is the point it is: IEEE-754 arithmetic from the
  standard library's `SpecFloat` for normalisation (C13), and real numbers with rounding to 24
  binary digits for SSIM (C123-C125; double precision sums and the final mean are exact, no
  overflow and no subnormal numbers), and real numbers with rounding in any IEEE format,
  overflow and gradual underflow included, for RMSE and PSNR (C131) and CNR and SNR (C132).
* **Integer types**: unsigned n-bit values are integers, operations reduce modulo 2^n.
* **Exceptions**: `Err ValueError` etc., one constructor per exception class raised by the
  modelled code (`Base.exn`; `MaskError` is numpy.ma's, `MemoryFault` stands for an invalid
  access in the C extension, `SystemExit` for `sys.exit`); warnings are modelled only where
  a property talks about them.
* **Figures**: what is handed to matplotlib (panels with their image plane, lines, patches,
  titles), not how it is drawn.
* **Widgets** (`InteractModel.v`): ipywidgets/traitlets as documented. An IntSlider moves its
  value into its limits, refuses limits with max < min (TraitError), a changed value notifies the
  observers at once and in order of registration, an equal value notifies nobody; drawing
  exceptions stay in the output widget; an exception in another callback ends the event and
  keeps what was changed before.
* **Not modelled**: rendering by matplotlib, mouse events and layout of widgets, progress bars, file
  system effects other than the bytes/rows written, image codecs (png, NIfTI), torch
  tensors except their axis order, the piq metric values themselves (an arbitrary function
  of the two tensors), the external Q-Measure C++ library.

## Testing the theorems

`seeded/LOG.jsonl` has one line per wrong program tried: a single edit of a model definition, made in a
scratch copy, with the claim it breaks. A proof that fails there is replaced by an appeal to a throw-away
axiom and compilation goes on, so the log lists every theorem that fails by itself, not only the first one.
A surviving edit led to a new or tighter theorem (`theorems_tightened`) and was tried again, unless it is
equivalent to the original or outside the properties; `outcome` says which.

## Per-property plan

* **C01** Voxel order of raw volumes: `_load_binary` on element lists: reshape, rot90(axes 0,2), flip(0) as index maps on n-d arrays; proved by index arithmetic.
* **C02** Raw size check: Same model; acceptance iff count matches; `np.fromfile` as floor(bytes/itemsize) elements.
* **C03** Raw byte decoding round trip: Little-endian decode of byte lists + C01; encoder is the specification.
* **C04** Dimensions from the file name: Small backtracking regex engine (list of remainders in priority order), the two patterns as data; proved for all decimal numerals.
* **C05** Bit depth from the file name: Same engine + `_parse_bitdepth` table.
* **C06** mhd header parsing: String split/join model of the header parser; dictionary as association list.
* **C07** File type dispatch: `os.path.splitext` and the extension chain on strings.
* **C08** load_data contract: `load_data` decision function over abstract input kinds.
* **C09** Real-valued normalisation: `normalize_data` float branch over R.
* **C10** Unsigned integer normalisation can wrap: Integer branch with explicit `mod 2^w`, numpy 1.x value-based casting.
* **C11** Already-normalised shortcut: `is`-comparison as an arbitrary identity relation satisfying CPython's guarantees.
* **C12** Only three output ranges exist: Case analysis on the range.
* **C13** Floating-point normalisation can lose full scale: `SpecFloat` evaluation of the two rounded operations; witness by computation, exact statement from C09.
* **C14** Crop contents: Python slice semantics (clamping, negative) on n-d arrays.
* **C15** Crop acceptance rule: Acceptance characterised on shapes.
* **C16** Colour images cannot be cropped: Broadcast of a length-2 against a length-3 vector raises.
* **C17** Image pair agreement: `_check_imgs` over abstract loaded images.
* **C18** Silent grayscale conversion of depth-3 data: Same; `rgb2gray` weights over R.
* **C19** Metric construction: Constructor over kwargs as association list.
* **C20** Metric comparison: Comparison methods over option R.
* **C21** Linear fusion: Fold over zipped lists, R. `FuseProps.v`: scores and weights of type `ext` (infinities and NaN), stated by the signs of the factors.
* **C22** RMSE is a metric on images: RMSE over lists of R; Cauchy-Schwarz/Minkowski proved from scratch.
* **C23** PSNR value: PSNR over R with an explicit infinity.
* **C24** PSNR and RMSE rank identically: Monotonicity of log.
* **C25** SSIM of identical images is 1: SSIM over n-d index windows with reflect padding, weights normalised; per-pixel argument.
* **C26** SSIM is symmetric: Symmetry of each factor.
* **C27** SSIM stays in [-1, 1]: Weighted Cauchy-Schwarz.
* **C28** SSIM parameter checking: Validation prefix as a decision function. Arguments are None, booleans, integers, real numbers or texts; each is looked at where the source does so (mode and cval only if something is filtered). Not modelled: `win_size` as a floating-point number (a TypeError in the end, after the two checks of the window), NaN and infinities as constants, underscores and blanks in texts of exponents.
* **C29** UQI ignores its zero stabilisers: kwargs lookup of K1/K2 in a string-keyed dictionary; equality for every filter; numeric witness.
* **C30** Chromatic SSIM averages after weighting: Channel loop; mean vs sum.
* **C31** GSM of identical images: Pixel formula with option for nan, nanmean.
* **C32** GSM bounds and symmetry: Same.
* **C33** GSM luminance term wraps for 8-bit images: 8-bit subtraction modulo 256.
* **C34** Gradient kernels ignore flat regions: Kernels as literal integer arrays, rot90 as index map; correlation with arbitrary border extension.
* **C35** MAD combination: Rpower with the 0 cases written out.
* **C36** MAD of identical images is 0: Per-pixel expressions with -inf/NaN; filter and filter bank are arbitrary functions, the buffers' initial contents are arbitrary. Full metric for square images (other shapes run into C39).
* **C37** MAD block bookkeeping: Index loops as lists of python ranges; the number of tiles and blocks is computed for every size. Findings: sizes that are not multiples of the stride raise IndexError; other overlaps assign blocks to the wrong tiles.
* **C38** MAD border removal: Python negative slice arithmetic.
* **C39** C statistics kernels, memory safety: The C loops run over an explicit n x m buffer with row pointers; an access outside is the error `MemoryFault`. The loop bounds of rows and columns are exchanged in the C code; the fault condition is characterised exactly.
* **C40** C minimum standard deviation search: Loop range of the search is empty from half the block size on; otherwise the minimum over the searched positions.
* **C41** Lightness lookup: Table lookup vs formula.
* **C42** Slice selection of slice-wise metrics: `piq_score`/`own_score` in SliceModel.v with the 2D score as an arbitrary function; theorems say that a slice call equals the same metric's call on the two 2D slices, what the slices contain (negative numbers count from the end, IndexError outside), and which argument combinations give ValueError.
* **C43** Full-volume scores ignore dim: `_check_chromatic` as torch unsqueeze/permute on arrays; the tensor is the batch of last-axis slices for every dim; `C43_dimension_refuted` gives a metric and volume where the mean over the requested dimension differs. For GSM, `experimental=True` is included.
* **C44** VSI cannot score RGB images directly: same model; the four classes differ in the `shape[-1] != 3` test only.
* **C45** `NrProps.v`. Value against an independent description of the regions (`selected`, `in_region`), invariance under positive affine maps for given and found regions (all kinds, greyscale), sign change, zero for coinciding and for full regions. The value of `np.float64(np.ma.masked)` (empty region) is an arbitrary constant `mk`.
* **C46** `NrProps.v`. Value, scaling invariance, strict increase under offsets for regions with two different pixels (`C46_noise`), and the general dichotomy (`C46_offset`).
* **C47** `RegionProps.v`. Cubic regions (voxel set and count), spherical regions for 2D, 3D and colour arrays.
* **C48** `RegionProps.v`. Exact acceptance condition; region for all accepted centres including negative ones (slices count from the end); empty and truncated cases.
* **C49** `NrProps.v`. ValueError for integer centres, never a value for any arguments with cubic/spherical regions; "full"/"original" do compute (0).
* **C50** `NrProps.v`. State machine of `score` for arbitrary loading and computing functions and any set of required keys.
* **C51** `BatchProps.v`. SNR's score as returned by its own `score` model (a pair), for both loading and multi-metric runs; `float(tuple)` raises TypeError. A run may fail earlier for another reason; `C51_never` says it never succeeds.
* **C52** `NrProps.v`. Arguments of the kernel; the kernel itself (submodule) is not in the repository.
* **C53** `BatchProps.v`. The batch loop with its cache is refined to a map over pairs, for metrics whose score does not depend on earlier calls (`history_free`; `C53_history` shows which of the package's metrics satisfy it). Metric scores, image files and `resize` are arbitrary functions.
* **C54** `BatchProps.v`. Positive statement under equal ROIs for neighbours sharing a file, reuse statements for all runs, and witnesses of wrong scores (`C54_refuted`, `C54_reference_refuted`).
* **C55** `BatchProps.v`. Reuse of the no-reference score for all runs, and a witness with a different value for the pair alone (`C55_refuted`).
* **C56** `BatchProps.v`. Invariant over the loop trace: keys, columns and values.
* **C57** `BatchProps.v`. Rows handed to `csv.writer` as lists of cells; C114 says what the file then holds. Number formatting is not modelled. The file is already truncated when the KeyError is raised.
* **C58** `BatchProps.v`. Dictionary update semantics of one pair's results.
* **C59** `BatchProps.v`. Constructor check and indexing of the ROI list.
* **C60** `ExportProps.v`. Metric objects live in a store (a list may hold an object twice); scores are numbers or texts, SNR's tuples are not modelled. `os.path.join` as string function (`C60_path`); the file is opened successfully. `C60_dict` for different names, `C60_replaced` for equal ones.
* **C61** `ExportProps.v`. Placement loops with their counter; positions over the reals. Printing (`:.2f`) is not modelled.
* **C62** `ExportProps.v`. Set of values against arguments; `C62_refuted` gives two arguments that pass. Slice contents in screen coordinates; trusted: `imshow` + `invert_yaxis` draw array row 0 at the bottom.
* **C63** `ExportProps.v`. Accepted names characterised by `named` (directory, stem with a non-dot character, extension) independently of `splitext`; `C63_letters` spells the kept names out without `lower`.
* **C64** `VisProps.v`. `visualize_3d` over `plot_slice` (ExportModel). `C64_accepted` is an iff on the three indices; `C64_rejected`, `C64_index_n` the two errors; `C64_arguments` wrong lengths, types, dimensions and bools. Drawing itself is not modelled: a figure is the list of its panels.
* **C65** `VisProps.v`. `cnr_visualize` follows CNR.visualize_centers including the missing argument: `C65_never` (no figure without the keyword region_type), `C65_type_error` (arguments passing the checks give TypeError), `C65_set_centers` (ImportError outside IPython), `C65_keyword` (works with the keyword for cubic and spherical names, UnboundLocalError for all others), `C65_stored`, `C65_nothing` (missing arguments), `C65_subplots` (the other keywords).
* **C66** `MiscModel.v`, `MiscProps.v`. `correlate_convolve_abs` with np.pad for the five border names; what np.pad does further than one image size outside is a function argument `far`, arbitrary. `C66_window` gives the value at each pixel for constant borders, `C66_borders` for the other names (image larger than the kernel), `C66_local` and `C66_not_centred` that the pixel itself and everything right of and below it have no influence, `C66_first` the first row and column, `C66_nonneg`, `C66_scale` (also for the padding value), `C66_modes`, `C66_oblong` (kernels with different extents fail). Numpy's "reflect" and "symmetric" are used for "reflect" and "mirror", exchanged relative to scipy.
* **C67** `RegionProps.v`. Corner set, order and contents of the blocks (block size and stride >= 1).
* **C68** `RegionProps.v`. Cleaned image in terms of city-block distances (iterations >= 1), centre, radius, region, definedness. scipy's dilation, erosion, exact EDT and numpy's argmax are modelled by their definitions; the EDT of an image without False voxels is unspecified and shown not to matter. "Non-binary" is the dtype check, which the type `arr bool` makes redundant.
* **C69** `RegionProps.v`. Matrix product written out; grey pixels; linearity.
* **C70** `RegionProps.v`. Percentile characterised through any sorted permutation, band membership, adjacent bands, upper percentile 100, colour images.
* **C71** `StatModel.v`, `StatProps.v`. An image is its data and the attributes; operations are `Derived` (slices, copies, casts: `__array_finalize__` takes the attributes over), `Changed` (assignments, in-place arithmetic), `Arith` and `Wrapped` (start unset), `Calculated`. The statistics functions are arbitrary. `C71_inherited`, `C71_history`, `C71_reset` are about all sequences; `C71_histogram`, `C71_float`, `C71_mixed` (a failing histogram leaves new and old values mixed), `C71_file`; `C71_stale_refuted` is a crop with the wrong mean.
* **C72** `ScriptModel.v`, `ScriptProps.v`. The scripts as functions of the argument list and of what reading a file or `glob` gives; result: the name and bytes written. Planes as byte groups. `C72_kept` (the kept projections written as a filter on their numbers), `C72_count`, `C72_loaded` (seen through the loader of the package), `C72_refused`, `C72_backwards`, `C72_folder`.
* **C73** `ScriptProps.v`. `C73_crop`: where each voxel of the result comes from; `C73_square` central box; `C73_not_a_box` (distinct voxels, different x and y extents: no box anywhere); `C73_unnamed`, `C73_factors`. `re.sub` is written out with the regular expression engine of `LoadModel.v`.
* **C74** `ScriptProps.v`. `C74_loaded` through `load_raw` of the written name; `C74_thick`, `C74_none`, `C74_wrong_size`. The order of `glob` is arbitrary.
* **C75** `ScriptProps.v`. The expected pairs are given by the relation `stem` (part before the first dot), files by folder and name: `C75_rows`, `C75_copied_rows`, `C75_three`. The characters of the csv file are those of C115.
* **C76** `MiscModel.v`, `MiscProps.v`. import and getattr are arbitrary functions. `C76_missing`, `C76_found`, `C76_attribute`, `C76_flag` (result and number of warnings); `C76_deps` with the texts of the messages.
* **C77** Gradient kernels respond to ramps: Kernels as literal arrays against linear images. Findings: there are 13 3D kernels (the documentation says 12), the two 2D "diagonal" kernels are not diagonal, the 3D diagonal ones are blind to one axis.
* **C78** The masking deviation is taken over real and imaginary parts: Assumption: numpy's `real` of a complex array is a view with doubled strides, and `pymatrix_to_Carrayptrs` ignores strides (both read off the sources). `C78_uniform_reference` (in `FreqProps.v`) combines it with the modelled contrast sensitivity filter.
* **C79** MAD without blocks is 0: ddof=1 of a single value is NaN, comparisons with NaN are false, so the mask is 0.
* **C80** MAD appearance index: swapping the images swaps the arguments of an absolute difference (`C80_symmetric`); the whole index written out over R with textbook moments (`C80_value`); `C80_weights`, `C80_no_orientation`.
* **C81** Chromatic mode of the slice-wise metrics: same model.
* **C82** `NrProps.v`. MaskError of the cubic colour mask, SNR without YUV, images with three columns. `C82_yuv`: the pixels of each channel and region are described by `selected` (positions in increasing order with a property), mean and deviation are the spelled out ones of C45.
* **C83** `NrProps.v`. Stored keywords.
* **C84** `RegionProps.v`, `NrProps.v`. Position of found regions, radius 0, TypeError of CNR.
* **C85** `NrProps.v`. Equality of the two region types; region of type "full". Trusted: `np.ma.array(img, mask=~region)` reads the data of a masked array given as mask.
* **C86** `NrProps.v`. Buffer contents for both memory orders; `C86_layout_refuted` refutes independence of the layout; double precision.
* **C87** `BatchLoadProps.v`. TypeError of the doubled keyword for all runs; shape of the images handed to the metrics and rejection by the colour check.
* **C88** `BatchLoadProps.v`. Whole pipeline from file to the images given to the metrics, for an arbitrary object identity with `65535 is not 65535` (explicit premise; CPython gives no guarantee outside -5..256). Witness that batch and multi-metric results differ (`C88_refuted`), positive result for 255.
* **C89** `ExportReportProps.v`. Whole file content for arbitrary value formatting; `C89_short`, `C89_no_range` the two ways to stop in the middle.
* **C90** `ExportReportProps.v`. Same display convention as C62.
* **C91** `ExportReportProps.v`. Composition of the two functions; `f"{x:.2f}"` of a text is ValueError, `endswith` of None AttributeError.
* **C92** `ExportReportProps.v`. Artefacts in the order written; what was written before an exception stays. `C92_pairs` ties figure n to pair n, `C92_export` the keyword export_image.
* **C93** `ExportReportProps.v`. `picture_pair` against `prepare_pair` of the batch model; scaling order 1 is fixed in the report.
* **C94** `VisProps.v`. `C94_crosshair`, `C94_negative`. Trusted: imshow puts element [i, j] at data coordinates x = j, y = i; axvline/axhline draw at these coordinates.
* **C95** `VisProps.v`. `agrees` relates the cells of a panel to the masked array of the scored region (`to_cubic`, `to_spherical`), `marked` says that the centre of a cell lies in the closed patch. `C95_volume` covers both metrics in 3D, `C95_plane` gives the exact position of all 2D patches, `C95_plane_refuted` an image in which no marked cell shows a scored pixel. Coordinates are non-negative in `C95_volume` (negative ones are drawn outside the picture).
* **C96** `VisProps.v`. `C96_explicit`, `C96_stored_ignored`, `C96_radius`, `C96_full` with a region; `C96_whole`, `C96_unhashable`, `C96_fallback` without; `C96_small`, `C96_short` remaining arguments. The elements of the region are arbitrary; truth of a one-element array is a parameter.
* **C97** `VisProps.v`. `cnr_start`, `snr_start`: set_centers up to the creation of the widgets (these: C102-C107). `C97_cnr` and `C97_snr` are iffs giving the stored parameters exactly, `C97_cnr_again`, `C97_snr_none` and `C97_score_kind` the consequences.
* **C98** `StatProps.v`. `image_visualize` on top of the panels of `VisModel.v`: `C98_colour`, `C98_grey`, `C98_volume`.
* **C99** `ScriptProps.v`. The folder as a finite map, contents arbitrary; directories inside the target are not modelled. `C99_folder` (first file asked for under a name), `C99_same_name`, `C99_no_folder`, `C99_argument`.
* **C100** `ScriptProps.v`. Loading is an arbitrary function, normalisation is the model of C09/C10: `C100_folders` (order, stop at the first failure), `C100_unsigned`, `C100_real`, `C100_constant`, `C100_usage`.
* **C101** `SsimProps.v`. Position laws of the border modes used by all window filters (symmetry and period, which determine the pixel read); the model of scipy's filters rests on them.
* **C102** `InteractModel.v`, `InteractProofs.v`, `InteractProps.v`. Sliders as records of limits and value, events as steps of a state machine (user interface, parameters, module variables). `C102_saved` by an invariant (limits of every coordinate slider follow from the radius, module variables equal what is shown) over any event sequence; `C102_moved` compares saving with and without one more slider move, `C102_untouched` saves at once; `C102_radius` gives the outcome of a radius change exactly; `C102_refuted` is the witness after a failed change.
* **C103** `InteractProps.v`. Notebook: objects, list of open user interfaces, one copy of the module variables. `C103_shared`, `C103_open`.
* **C104** `InteractProps.v`. `C104_cnr`, `C104_snr`: outcome of set_centers after the checks of C97, with the parameters stored.
* **C105** `InteractProps.v`. `C105_saved` as C102, `C105_radius` outcome of a radius change, `C105_radius_2d` what is stored after the AttributeError, `C105_refuted` witness that shown and stored radius differ.
* **C106** `InteractProps.v`. `C106_thresholds` (empty binary image, from monotone percentiles), `C106_possible` shows the hypotheses of C107 can be met, `C106_reopened` two calls of set_centers.
* **C107** `InteractProps.v`. `C107_stale`, `C107_other` (two user interfaces), `C107_kind`, `C107_twice`.
* **C108** `FreqProps.v`: the discrete Fourier transform is defined as its finite sum over pairs of reals (a ring, `FreqProofs.cring`); inversion follows from the sum of the roots of unity. `C108_round_trip`, `C108_weights` (against `csf_spec`, which has no arctan2: cos 4θ is a rational function of the coordinates), `C108_odd_real`, `C108_even_real_refuted`, `C108_constant`, `C108_below_peak`, `C108_injective`, `C108_square`, `C108_transposed_refuted`, `C108_monitor`.
* **C109** `FreqProps.v`: the filter is 0 at frequency 0 and a constant only has that frequency. `C109_affine`, `C109_constant`, `C109_mean`, `C109_errors`.
* **C110** `FreqProps.v`: stated on the spectrum of the responses, in polar coordinates (no arctan2 in the statement). `C110_gain`, `C110_blocked`, `C110_even`, `C110_odd`, `C110_odd_refuted`, `C110_range`, `C110_mad` (the constants MAD uses).
* **C111** `FreqProps.v`: `C111_appearance`, `C111_copy`, `C111_mad` (the filter of the detection index is arbitrary there).
* **C112** `MadDetectProps.v`: `C112_value` (the index written out with plain sums, means and deviations; the deviation of the reference is that of the interleaved values, see C78), `C112_dark`, `C112_uniform` (parameters of the package).
* **C113** `MadDetectProps.v`: `C113_blind`, `C113_volume`. Uses Parseval's theorem for the modelled transforms and that every weight of the contrast sensitivity function is at most 1, both proved there.
* **C114** `CsvProps.v`. `CsvModel.v` writes out csv.writer and csv.reader (state machine of the C source: quoting, doubling, line ends, field limit) for the options in use; this reading of the csv module was compared with the real one on random files and is trusted. Cells are texts: str() of numbers is outside. `C114_round_trip`, `C114_injective`, `C114_long_refuted` (the limit is sharp).
* **C115** `CsvProps.v`. `C115_pairs` (equivalence), `C115_script` (with the rows of C75). What Sniffer finds for a first line with quotation marks is an arbitrary function; for other lines it is written out for the one line and the separators handed over.
* **C116** `CsvProps.v`, `CsvEndProps.v`. The file is described by rows, separator and line end (`plain_file`): `C116_plain`, `C116_blanks`, `C116_one_column`, `C116_value_error_refuted`. `C116_line_ends` and `C116_last_line_end` are about any file without quotation marks (`unix` replaces each line end by one LF, `head_line` is the first line without its end), `C116_line_ends_refuted` shows why the condition is needed, `C116_open_quotation` what an open quotation does. Encodings and byte order marks are not modelled.
* **C117** `PrintModel.v`, `PrintProofs.v`, `PrintProps.v`. A call leaves a list of effects (lines printed, warnings) and a result. np.round and `:.{d}f` on exact reals (no negative zero), half to even; the text of a numpy number is an arbitrary function, the text of print_values is written out and read back by an independent reader (`read_num`). `C117_round`, `C117_order`, `C117_again`, `C117_text`, `C117_digits`, `C117_values`, `C117_negative`, `C117_scored`, `C117_unscored` (with `_refuted`), `C117_after_export`.
* **C118** `WarnModel.v`, `WarnProps.v`. The loading functions again with the calls of warn in order; `C118_load_same` and `C118_pair_same` show that the results are those of `PairModel.v`. `C118_range`, `C118_pair`, `C118_range_used`, `C118_crop`, `C118_crop_z_refuted`, `C118_normalised` (with `_refuted`), `C118_thresholds` (with `_refuted`), `C118_exponents`. Which warnings python shows (its filters) is not modelled.
* **C119** Same files. `choose` is the decision of the six score methods with warning and message; `C119_piq` and `C119_own` tie it to `SliceModel.v`. `C119_volume`, `C119_plane` (with `_refuted`), `C119_refused`, `C119_message` (with `_refuted`). Of dim and im_slice values that are neither None nor numbers only the truth value is known.
* **C120** `SsimSymProofs.v`, `SsimSymProps.v`, on `SsimModel.v`. `C120_only_identical` for the settings of `opts` (C28); `C120_ssim`, `C120_uqi` for the score methods with default settings; `C120_exponent_refuted`, `C120_window_refuted`, `C120_negative_refuted`. A mean of 1 of values that are at most 1 makes every counted value 1, so every window has equal means, equal variances and full correlation; the windows cover the image.
* **C121** `UnitProps.v`. `C121_structural_similarity`, `C121_scores`, `C121_rmse_psnr`, `C121_gsm` (float images) with `C121_gsm_refuted` and `C121_offset_refuted`. The data range is any value numpy takes as the given real number, so 8-bit images stretched to 16 bits are an instance.
* **C122** `TurnProps.v`. `moved` applies a list of np.flip, np.swapaxes and np.rot90 calls (`LoadModel.v`, C01). `C122_structural_similarity`, `C122_scores`, `C122_pixels`, `C122_moved_pixels`, `C122_gsm_refuted`. The proof shows that the filter passes along different axes commute, for every border mode, because the weights sum to 1.
* **C123** `SsimRoundModel.v`, `RoundProofs.v`, `SsimRoundProofs.v`, `SsimRoundWitness.v`, `SsimRoundProps.v`. The model repeats ssim.py 365-421 with a rounding after each array operation; with the identity as rounding it is the exact model (`C123_exact`). `float32` rounds to 24 binary digits, ties to even (`C123_rounding`, `C123_representable`, `C123_nearest`). `C123_hidden_pixel`, `C123_hidden_score`: what a negative variance does; `C123_distortion_seen_refuted` is the 16-bit witness; `C123_contrast`, `C123_flat` exclude it; `C123_cast`, `C123_one_only_if_equal_refuted`.
* **C124** `SsimRoundProps.v`. `C124_identical`, `C124_symmetric`, `C124_flat`; `C124_exactly_one_refuted` is a 7x7 image with two rows of 18 on 0.
* **C125** `SsimRoundProps.v`. `C125_range`, `C125_default`; `C125_at_most_one_refuted` (score above 1.0001) and `C125_near_one_refuted` (the same images with data_range 255: above 9).
* **C126** `FileModel.v`, `FileProofs.v`, `FileProps.v`. `disk` goes from a path to the image: os.path.dirname/basename/join, the file type, the name or header, the bytes, the numbers. `stored files p d nx ny nz bytes` says, without the functions of the model other than those of C04-C06, that the path names a raw file or an mhd header with these dimensions and data. `C126_read`, `C126_size`, `C126_missing`, `C126_rmse`, `C126_psnr`, `C126_ssim`, `C126_same_content`, `C126_dims_unseen`, `C126_three_slices`; `C126_float_words`: the words of float files stand for exactly the numbers of the IEEE 754 format. Infinities and NaN in files are outside the statements (`value` is None). Text files are ASCII.
* **C127** `FileProps.v`. `C127_three_fields`, `C127_byte_order`, `C127_two_dims`, `C127_local`.
* **C128** `TurnNrProofs.v`, `TurnNrProps.v`, on `RegionModel.v` and `NrModel.v`; `moved` as in C122. `follow e` gives the coordinates of a centre after the moves, `fits` says that the region lies in the image. `C128_cnr`, `C128_snr` (all region kinds, including the error of an unknown kind); `C128_cube_refuted` with the mirrored voxel as centre; `C128_auto_full`, `C128_snr_auto_full`; `C128_auto_ball` under `furthest` (one voxel is further from the False voxels of the cleaned image than all others); `C128_auto_cube_refuted`, `C128_auto_ball_refuted`. The proof shows that dilation, erosion and the distance transform commute with the moves. Greyscale as in C47; SNR needs a last axis other than 3 (C82).
* **C129** `RunModel.v`, `RunProofs.v`, `RunProps.v`: BatchModel, CsvModel, FileModel and MetricModel put together, from the files of the machine to the files of the machine. Simplified: directories exist, text is ASCII, `str()` of a score is a function argument `repr` (its texts have at most 131072 characters; for reading the results as pairs also no quotation mark); metrics other than RMSE and PSNR are function arguments. `measured` says that both files of a pair are `stored` (C126) with equal type and size, not three slices, and gives the mean squared difference of their words. `C129_table` (total: the run succeeds), `C129_results_are_pairs`, `C129_again`, `C129_truncated`, `C129_stopped`, `C129_no_pairs`, `C129_pairs_path`; `C129_relative_refuted` (documentation of `pairs_file`). Example with a raw and an mhd file.
* **C130** No new model: MetricModel.rmse_score/psnr_score on FileModel.disk with the normalising branch of PairModel.prepare. `holds` says which numbers a raw or mhd file contains (bytes, little endian), `spans` which extremes they have, `rmsd` is the root of the mean squared difference. C130_unit, C130_gain: data_range 1, any two types. C130_float: data_range 255 and 65535 for floating point files, with the bound between quantised and exact score. C130_unsigned: integer files including the modulus. C130_8_bit: left alone (identity of small integers in CPython). C130_gain_16_bit_refuted, C130_gain_8_bit_refuted: scan and doubled scan.
* **C131** RmseRoundModel.v: IEEE formats (precision, exponent of the smallest number, of the overflow limit), `store` rounds to nearest even with gradual underflow and overflow to infinity; `work_format` is np.result_type with np.float32; `square_diff` one voxel of skimage's mean_squared_error; `tree` an arbitrary order of the additions of np.mean(dtype=float64). Simplified: quotient and logarithm of PSNR are exact. C131_error, C131_six_digits, C131_files: error bounds, the last for raw and mhd files against MetricModel.rmse_score. C131_8_bit, C131_constant: exact sums. C131_zero: zero exactly for identical integer images, PSNR likewise. C131_psnr_error, C131_psnr_digits, C131_psnr_8_bit (PsnrRoundProps.v): the same in decibels against MetricModel.psnr. C131_symmetric, C131_sign. C131_underflow, C131_overflow and the refuted expectations C131_zero_float_refuted, C131_finite_refuted, C131_constant_16_bit_refuted.
* **C132** NrRoundModel.v: np.mean, np.std and the last lines of CNR and SNR with rounding (formats and `store` of C131), `order` an arbitrary order of additions, one for each sum. Not modelled: half precision images; cubic and spherical regions of single precision images, where numpy's masked arrays mix both precisions. C132_snr_error, C132_cnr_error: error bounds against NrModel.snr_value and cnr_value; C132_16_bit_snr, C132_16_bit_cnr: the same without conditions on the values for 8 and 16-bit regions. C132_constant, C132_test: when np.std(...) == 0 is reliable. C132_three_voxels, C132_three_voxels_cnr, C132_constant_float_refuted: a constant float region with a huge SNR.
* **C133** `NotebookModel.v`, `NotebookProps.v`: the cells of both notebooks in order on BatchModel, ExportModel and VisModel; a failing cell ends the run, cells that only print are left out, cells are not run out of order. The metric functions, the loader, skimage's resize, calculate_statistics() and what the widgets leave in the parameters are function arguments. `reported` gives the columns of a metric. C133_snr, C133_delivered, C133_shapes, C133_batch_pictures, C133_batch_delivered, C133_batch_errors: runs that fail. C133_columns, C133_scores (images that are not of three slices, see C58), C133_files, C133_slice: the first notebook. C133_widgets: two runs with different widget outcomes are equal. C133_batch_files, C133_no_pairs: the second. C133_same: both.
* **C134** `SsimExpProps.v`, on `SsimModel.v`; `accepted` are the settings of C28 with one of the border modes that never read the fill value. `together` and `opposed` compare all pairs of pixels; the sign of the covariance of a window follows from 2 cov = sum over pairs. C134_formula, C134_lower, C134_score, C134_off, C134_raises, C134_lower_refuted (default constants, uniform window of 3).
* **C135** RangeProps.v: RMSE and PSNR score bounds with equality cases on the score methods, integer upper bound for PSNR, unboundedness, MAD never negative for arbitrary filters and memory contents, sign of CNR, SNR of non-negative images; the bounds of the table that are false are refuted by images. No own model: uses MetricModel, MadModel, NrModel.
* **C136** `MessageModel.v`, `MessageProps.v`. Results carry the exception class and the text; the text is None for exceptions of libraries and of functions not modelled here (file readers are an argument with their own texts, masks of regions). `C136_*_same`: forgetting the text gives the models of C08, C17, C19, C28, C35, C45 and C46. `C136_load_texts` and `C136_pair_texts` list all texts. `C136_ndim` is an equivalence; its converse asks for pixels that fill the shape. CNR and SNR with given centres; SNR of images that are not (H, W, 3).
* **C137** `TupleModel.v`, `TupleProps.v`. `snr_pair` adds the dictionary to NrModel.snr (C137_tuple: same values, keys and errors). score_val is None, a text, a python or numpy number, or a tuple with an identity. Trusted behaviour of python and numpy: members of tuples and dictionaries are compared in order with `is` before `==`; the truth value of an array of two or more elements is a ValueError; `==` of a tuple and a numpy number is an array; np.round of a tuple with a dictionary is a TypeError. Simplified: comparison of empty arrays as in numpy 2.2, weights of the fusion are python floats, a centre given as list or tuple is not distinguished.
* **C138** `MadStateModel.v`, `MadStateProps.v`. The module variables M, N, BLOCK_SIZE, STRIDE as a state that calls pass on (also when they raise); the two indices read it. With variables that match the image they are those of MadModel.v (C138_after). Simplified: two threads are modelled by another setting of the variables before the detection index or between the two indices, not inside one; an image whose size differs from the variables but broadcasts against them (a side 1) is an arbitrary result `strange` of the detection index. Weights: a list, an array of floats or an array of integers; `/=` is numpy division in place.
* **C139** `SuiteModel.v`, `SuiteProps.v`. pytest.raises with a text as an occurrence of it in the message (MessageModel.v), capsys as the printed lines with line ends. Trusted: `str` of the float next to k/100 has the digits of k, one decimal if the second is 0 (hypothesis `python_text`). Tests on the image files of the project (conftest.py), on the value 0.78 of FSIM and on different data ranges are left out: they depend on data.
* **C140** `SsimWinProofs.v` (SSIM as a mean of the formula over windows with convex weights), `DistortProps.v`. RMSE and PSNR of MetricModel.v on lists of pixels, SSIM/UQI of SsimModel.v with exponents 1 and nonzero constants. Nothing new is modelled.
* **C141** `DataRangeProps.v`, on the same windows. Only data_range as a parameter of the formula is changed here; loading with another data_range (normalising) is in C04, C05 and C113.
* **C142** `VolumeProps.v`, on `rmse` and `psnr` of MetricModel.v and `take_axis` of the loading model (np.take). The mean of logarithms is bounded by the logarithm of the mean (`mean_ln`, from ln x <= x - 1).
* **C143** `StackProps.v`. `copies n p` is np.stack([p] * n). Filtering along the new axis changes nothing as the weights sum to one; the cropped map of the stack is that of the plane repeated. Copies along another axis follow with the reordering of axes of C122.
* **C144** `ResolutionProps.v`. Integer images are `map IZR` of lists of integers (all pixels in reading order); `one_step` says that two lists differ in one place, by one. Regions as in C45 and C46 (`selected`, `in_region`). The bounds of SNR and CNR use that n times the sum of squares minus the squared sum is the sum of the squared differences of all pairs of pixels. Two examples show bounds of SNR that are reached.
* **C145** `BuildModel.v`, `BuildProps.v`. Files are texts (`list ascii`) after the translation of line ends; `readlines`, `startswith`, `strip` and `split` are those of python on these characters. What python itself makes of the line is not modelled, nor is reading pyproject.toml: its lists are arguments. The outcome type `found` has its own constructors for StopIteration and IndexError.
* **C146** `GsmGainProps.v`. The model is that of C31 and C32 (`GsmModel.v`, exact reals); the second image is `amap (Rmult s) r`. `best_gradients (PF r r) = Ok (br, _)` names the strongest gradient image of r; `0 < amax (dat br)` is the assumption that it has a positive value. Refutations with images of two pixels.
* **C147** `MadGainProps.v`. The model is that of C80 and C111 (`MadModel.v` with the filters of `FreqModel.v`, exact reals, square images). `texture` spells out the number that depends on the image only, from the deviations (`MadProps.v`) of the blocks of the filtered image. In floating point arithmetic the guard "standard deviation is 0" is met by rounding accident on nearly flat blocks; the model decides it exactly.
* **C148** `PartsProps.v`. Images are the lists of their pixels as in C22 to C24; `mean` and `deviation` are those of C45 (`NrProps.v`, population standard deviation), `covariance` is spelled out beside the theorems. Exact reals.
* **C149** `VolumeMeanProps.v`. The model is that of C42 and C43 (`own_score` of `SliceModel.v`, without `experimental`); the 2D metric is an arbitrary function of two slices. `slice_score` and `volume_score` are the two ways of calling `score`, with and without `im_slice`.
* **C150** `GsmSeenProps.v`. The model is that of C31 and C32 (`GsmModel.v`, exact reals). `larger br bm` is the gradient image in the denominator (line 432). The edges are images of 2x2 float pixels; `C150_ex_unseen` has a row of six pixels with a dot at the border that does not change the score.
* **C151** `FuseRankProps.v`. The models are those of C21, C22 and C23 (`fuse`, `rmse`, `psnr` of `MetricModel.v`). `holding ms xs` says that the metric objects `ms` store the finite scores `xs`; `C151_both_positive_refuted` gives, for all weights in its assumption, two images of one pixel that are ranked the wrong way.
* **C152** `MixProps.v`. The models are those of C22 and C23 (`rmse`, `psnr` of `MetricModel.v`, exact reals). `mix t a b` is the list of pixels of t a + (1-t) b; `average is m` the pixelwise mean of the images `m i`, which are functions on the positions `l`.
* **C153** `ChainProps.v`. The models are those of C22 and C23 (`rmse`, `psnr` of `MetricModel.v`, exact reals). `steps m0 ms` pairs each image of the chain with the next one; `elt` is the order of extended numbers of C24.
* **C154** `AverageNrProps.v`. The models are those of C45 and C46 (`NrModel.v`, exact reals). `mixed t a b` is the image t a + (1-t) b; the regions are given (no automatic ones), `selected` names the pixels of a region as in C45.
