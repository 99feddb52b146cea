{"id": "C01", "title": "Voxel order of raw volumes", "statement": "Loading a .raw/.mhd volume with dimensions X x Y x Z returns an array of shape (X, Y, Z) whose element [x, y, z] is the file element number x + X*(y + Y*z): x runs fastest on disk and ends up as the first array axis.", "quantifier": "every element list and every X, Y, Z with matching element count; every voxel index", "why_tests_cant": "the reshape / rot90 / flip chain agrees with many wrong orders on symmetric, cubic or tiny test volumes", "anchors": ["src/viqa/utils/loading.py:_load_binary", "src/viqa/utils/loading.py:load_raw", "src/viqa/utils/loading.py:load_mhd"]}
{"id": "C02", "title": "Raw size check", "statement": "A raw volume is accepted exactly when the number of whole elements in the file equals X*Y*Z; otherwise a ValueError is raised and no array is returned. A trailing fragment shorter than one element is ignored.", "quantifier": "every file content, element size and dimension triple", "why_tests_cant": "only a handful of sizes can be tried", "anchors": ["src/viqa/utils/loading.py:_load_binary"]}
{"id": "C03", "title": "Raw byte decoding round trip", "statement": "Writing an unsigned-integer volume in native little-endian order, x fastest, and loading it with the matching dimensions and bit depth gives back the same volume, voxel by voxel; different volumes give different files. A voxel takes an eighth of the bits named in the file name (or in the header) as bytes.", "quantifier": "every volume of every shape and every unsigned element width", "why_tests_cant": "a round trip over all contents cannot be sampled", "anchors": ["src/viqa/utils/loading.py:_load_binary"]}
{"id": "C04", "title": "Dimensions from the file name", "statement": "For a name made of a digit-free prefix, decimal X, 'x', decimal Y, 'x', decimal Z and a suffix that does not begin with a digit, the loader reads exactly the triple (X, Y, Z), whatever follows. A name without such a triple is rejected with ValueError.", "quantifier": "all non-negative integers X, Y, Z and all prefixes/suffixes of the stated form", "why_tests_cant": "regex search semantics (leftmost, greedy, backtracking) only shows on names a test author did not think of", "anchors": ["src/viqa/utils/loading.py:load_raw"]}
{"id": "C05", "title": "Bit depth from the file name", "statement": "The documented tokens 8ubit, 16ubit, 32ubit, 8bit, 16bit, 32bit select unsigned integers of that many bits and 16fbit, 32fbit, 64fbit floats of that many bits; every other token found by the search is rejected with ValueError. In particular the plural spelling ('16bits'), which the search pattern explicitly accepts, is always rejected, and of a longer number only the last two digits are used ('116ubit' is read as 16 bit).", "quantifier": "every file name of the form prefix + digits + letters, prefix and suffix arbitrary digit-free strings", "why_tests_cant": "finite example names do not cover the greedy two-digit window", "anchors": ["src/viqa/utils/loading.py:load_raw", "src/viqa/utils/loading.py:_parse_bitdepth"]}
{"id": "C06", "title": "mhd header parsing", "statement": "A header whose every line is 'key = value' and is terminated by a newline yields exactly those key/value pairs (the last one wins for repeated keys), hence DimSize, ElementType and ElementDataFile as written, in any line order. A header whose last line is not newline-terminated silently loses that line; if it is the ElementDataFile line the load fails with KeyError. A terminated line without ' = ' or with two of them raises ValueError. Any white space around and between the three numbers of DimSize is accepted.", "quantifier": "all lists of header entries and orders", "why_tests_cant": "line-splitting corner cases depend on the final newline, which test fixtures always have", "anchors": ["src/viqa/utils/loading.py:load_mhd"]}
{"id": "C07", "title": "File type dispatch", "statement": "Which reader is used depends only on the text after the last dot: .mhd, .raw, .nii, .png/.jpg/.jpeg/.bmp/.tiff are accepted case-sensitively, .gz only if the name contains a character followed by 'nii' somewhere; everything else (including .tif and .RAW) is rejected with ValueError. So names such as 'xnii_notes.gz', which are not NIfTI names, are still handed to the NIfTI reader.", "quantifier": "every file name", "why_tests_cant": "extension handling has unboundedly many spellings", "anchors": ["src/viqa/utils/loading.py:_load_data_from_disk"]}
{"id": "C08", "title": "load_data contract", "statement": "load_data never returns anything but a 2- or 3-dimensional image; an array passed in without normalisation or ROI comes back with identical shape, type and contents; normalisation without data_range, unsupported inputs and deprecated batch mode raise; data_range=0 with normalize=True silently skips the normalisation. With a ROI the image is normalised first and cropped afterwards, so the intensity mapping uses the extrema of the whole image, not of the ROI.", "quantifier": "every input kind, dimension count, data_range/normalize/roi combination", "why_tests_cant": "the option matrix times all images cannot be enumerated", "anchors": ["src/viqa/utils/loading.py:load_data"]}
{"id": "C09", "title": "Real-valued normalisation", "statement": "For a non-constant floating-point image (exact arithmetic), normalising to (0, 1) maps the smallest value to 0, the largest to 1, keeps the order of all pixels, is unchanged when the input is first scaled by a positive factor and shifted, and is idempotent; normalising to (0, 255) or (0, 65535) gives integers of that range, the smallest pixel 0 and the largest the full range, again order preserving.", "quantifier": "every non-constant image with real values", "why_tests_cant": "quantifies over all images", "anchors": ["src/viqa/utils/loading.py:normalize_data"]}
{"id": "C10", "title": "Unsigned integer normalisation can wrap", "statement": "Normalising an unsigned-integer image to a range (0, hi) equals the exact linear stretch floor((v-min)*hi/(max-min)) for every pixel whenever (max-min)*hi fits the integer type used for the product (the wider of the image type and the smallest type holding hi). Otherwise the product is reduced modulo 2^width: there are 16-bit images whose 8-bit normalisation reverses the order of pixels and 8-bit images whose 16-bit normalisation (the README example) never reaches 65535. Every image spanning the full type range is affected.", "quantifier": "every unsigned image of 8, 16 or 32 bits and every supported output range", "why_tests_cant": "wrap-around depends on the value range, not on code paths", "anchors": ["src/viqa/utils/loading.py:normalize_data"]}
{"id": "C11", "title": "Already-normalised shortcut", "statement": "normalize_data leaves an image untouched (apart from a warning) exactly when its integer type spans the requested range and Python happens to hold both limits as the same objects. Because CPython only shares small integers this is guaranteed for 8-bit images and (0, 255); a 16-bit image requested as (0, 65535) with separately created integers is stretched instead of being left unchanged.", "quantifier": "every image, type and range; every assignment of object identities consistent with CPython's small-integer cache", "why_tests_cant": "object identity is not visible to value-based tests", "anchors": ["src/viqa/utils/loading.py:normalize_data"]}
{"id": "C12", "title": "Only three output ranges exist", "statement": "normalize_data returns an image only for output ranges (0,1), (0,255), (0,65535) (as 32-bit float, 8-bit and 16-bit unsigned respectively); any other range raises ValueError, except when the already-normalised shortcut applies.", "quantifier": "every pair of integer limits and every image", "why_tests_cant": "infinitely many ranges", "anchors": ["src/viqa/utils/loading.py:normalize_data"]}
{"id": "C13", "title": "Floating-point normalisation can lose full scale", "statement": "With IEEE-754 rounding the brightest pixel of a floating-point image need not become 255 (nor 65535): the computation fl(fl((max-min)*255)/(max-min)) can fall just below 255 and is then truncated to 254. The same expression without rounding is always exactly 255.", "quantifier": "existence over binary32 and binary64 inputs; the exact-arithmetic statement for every non-constant image", "why_tests_cant": "needs a specific mantissa, random tests rarely hit it and never explain it", "anchors": ["src/viqa/utils/loading.py:normalize_data"]}
{"id": "C14", "title": "Crop contents", "statement": "If a crop with non-negative, in-range bounds is accepted and is smaller than the image, the result has shape (x1-x0, y1-y0[, z1-z0]) and its pixel [i, j(, k)] equals pixel [x0+i, y0+j(, z0+k)] of the input. Bounds reaching beyond the image are silently clipped, so the result can be smaller than requested, down to empty. Negative bounds count from the end. Loading a volume with a region of interest gives the same box.", "quantifier": "every 2D and 3D image and every bound pair", "why_tests_cant": "all shapes and offsets", "anchors": ["src/viqa/utils/loading.py:crop_image"]}
{"id": "C15", "title": "Crop acceptance rule", "statement": "A crop is performed only if it is strictly smaller than the image along every axis. A crop that keeps one full axis is rejected with ValueError. A request whose extents equal the image extents on every axis returns the whole image whatever its offsets are, i.e. the requested offsets are ignored.", "quantifier": "every image shape and every bounds", "why_tests_cant": "the rule couples all axes", "anchors": ["src/viqa/utils/loading.py:crop_image"]}
{"id": "C16", "title": "Colour images cannot be cropped", "statement": "Cropping an (H, W, 3) image, including a 3D volume whose depth is 3, always raises ValueError although the code has a branch for colour images.", "quantifier": "every H, W and bounds", "why_tests_cant": "requires all sizes", "anchors": ["src/viqa/utils/loading.py:crop_image"]}
{"id": "C17", "title": "Image pair agreement", "statement": "If the pair loader used by all full-reference metrics returns, both images have the same element type and the same shape; a mismatch in either always raises ValueError; lists of images are always rejected; with chromatic=True a last axis other than 3 is always rejected.", "quantifier": "every pair of inputs and options", "why_tests_cant": "all shape/type pairs", "anchors": ["src/viqa/utils/loading.py:_check_imgs", "src/viqa/_metrics.py:FullReferenceMetricsInterface.load_images"]}
{"id": "C18", "title": "Silent grayscale conversion of depth-3 data", "statement": "With chromatic=False any pair whose last axis has length 3 is converted to grayscale: a colour image loses its last axis as intended, but a genuine 3D volume of depth 3 is collapsed to a 2D image and is from then on scored as such. The grayscale value lies between the smallest and largest channel value and equals the common value when the channels agree, unless it exceeds 255, where it is clipped to 255 (16-bit colour data saturates).", "quantifier": "every image whose last axis is 3", "why_tests_cant": "all images", "anchors": ["src/viqa/utils/loading.py:_check_imgs", "src/viqa/utils/misc.py:_to_grayscale"]}
{"id": "C19", "title": "Metric construction", "statement": "Constructing a metric with normalize=True and a missing or zero data_range raises ValueError; otherwise it succeeds, the given keyword options override the defaults chromatic=False and roi=None, and the metric starts without a score. PSNR, SSIM, UQI, MS-SSIM, FSIM, VIFp, VSI, MAD and GSM additionally refuse data_range=None. RMSE, PSNR and FSIM carry a 'c' in their name when chromatic, SNR has no name. SNR stores its name, 'SNR' by default, among its parameters.", "quantifier": "every constructor argument combination", "why_tests_cant": "keyword-override semantics over arbitrary kwargs", "anchors": ["src/viqa/_metrics.py:Metric.__init__"]}
{"id": "C20", "title": "Metric comparison", "statement": "Comparing two scored metrics, or a scored metric with a number, orders them exactly as their score values (infinite PSNR included): the six operators are mutually consistent, and the order is total and transitive, as long as no score is NaN; a metric with a NaN score is not even equal to itself. Ordering an unscored metric raises TypeError while == and != still answer; equality compares only scores, so different metrics with equal scores are equal.", "quantifier": "all pairs/triples of metrics and scores", "why_tests_cant": "order laws range over triples", "anchors": ["src/viqa/_metrics.py:Metric.__eq__", "src/viqa/_metrics.py:Metric.__lt__"]}
{"id": "C21", "title": "Linear fusion", "statement": "fuse_metrics_linear_combination returns sum_i score_i*weight_i, is linear in the weights and in the scores, invariant under permuting metrics together with their weights, between the smallest and largest score for convex weights, and for scored metrics raises ValueError exactly when the two lists differ in length. An unscored metric raises TypeError whatever its weight. With infinite scores or weights or NaN: the result is NaN exactly if a factor is NaN, an infinity meets 0 or terms are infinite in both directions, and infinite exactly if terms are infinite in that direction only; so an infinite PSNR decides the result alone, and with weight 0 makes it NaN.", "quantifier": "every list of scores and weights", "why_tests_cant": "all lists", "anchors": ["src/viqa/fusion.py:fuse_metrics_linear_combination"]}
{"id": "C22", "title": "RMSE is a metric on images", "statement": "RMSE is non-negative, zero exactly for identical images, symmetric, satisfies the triangle inequality, is bounded by the largest absolute pixel difference, is unchanged by adding a constant image to both and scales with a common factor.", "quantifier": "all triples of equally shaped non-empty real images", "why_tests_cant": "laws over triples of images", "anchors": ["src/viqa/fr_metrics/rmse.py:RMSE.score"]}
{"id": "C23", "title": "PSNR value", "statement": "PSNR is infinite exactly when the two images are identical; otherwise it equals 20*log10(data_range/RMSE), is symmetric and is non-negative exactly when RMSE <= data_range. The documented lower bound 0 is therefore violated by images whose RMSE exceeds the configured data_range (e.g. 16-bit data with the default 255).", "quantifier": "all image pairs, all positive data ranges", "why_tests_cant": "all images", "anchors": ["src/viqa/fr_metrics/psnr.py:PSNR.score"]}
{"id": "C24", "title": "PSNR and RMSE rank identically", "statement": "For a fixed data_range, one distorted image has a larger PSNR than another exactly when it has the smaller RMSE; changing data_range shifts all finite PSNR values by the same constant and never changes the ranking.", "quantifier": "all image pairs and data ranges", "why_tests_cant": "ordering over all images", "anchors": ["src/viqa/fr_metrics/psnr.py:PSNR.score", "src/viqa/fr_metrics/rmse.py:RMSE.score"]}
{"id": "C25", "title": "SSIM of identical images is 1", "statement": "For every image large enough for the window, SSIM of the image with itself is exactly 1, for every window, constants K1, K2, data_range, exponents and for both uniform and Gaussian windows (exact arithmetic).", "quantifier": "all 2D/3D images and all admissible parameters", "why_tests_cant": "all images and parameters", "anchors": ["src/viqa/fr_metrics/ssim.py:structural_similarity"]}
{"id": "C26", "title": "SSIM is symmetric", "statement": "Swapping reference and modified image does not change SSIM.", "quantifier": "all image pairs and parameters", "why_tests_cant": "all images", "anchors": ["src/viqa/fr_metrics/ssim.py:structural_similarity"]}
{"id": "C27", "title": "SSIM stays in [-1, 1]", "statement": "SSIM lies in [-1, 1] for all non-negative exponents, both with the population and the sample covariance normalisation, for every border mode; the only exception is mode 'constant' with a Gaussian window, an explicit win_size and a cval, where values below -1 occur.", "quantifier": "all image pairs, windows and constants", "why_tests_cant": "a bound over all images rests on the Cauchy-Schwarz inequality", "anchors": ["src/viqa/fr_metrics/ssim.py:structural_similarity"]}
{"id": "C28", "title": "SSIM parameter checking", "statement": "structural_similarity raises ValueError for negative K1, K2 or sigma, for an even window and for a window larger than any image axis, and accepts all other combinations with a window of more than one pixel and a border mode scipy knows. A one-pixel window given explicitly raises ZeroDivisionError, the documented modes 'edge' and 'symmetric' raise RuntimeError, and negative odd windows are accepted. Non-integer exponents are truncated to integers, so e.g. gamma=0.5 switches the structure term off (the cast is warned about, C118). None and texts as K1, K2 or sigma raise TypeError, unless a negative constant before them has raised ValueError; texts of integers as exponents stand for the integers, other texts raise ValueError. Booleans as windows are the integers 0 and 1. A mode that is no text raises RuntimeError; but with a gaussian of at most 1e-15 nothing is filtered and neither mode nor cval is looked at, even if they are wrong.", "quantifier": "all parameter values", "why_tests_cant": "infinite parameter space", "anchors": ["src/viqa/fr_metrics/ssim.py:structural_similarity"]}
{"id": "C29", "title": "UQI ignores its zero stabilisers", "statement": "UQI is documented as SSIM without stabilising constants, but the constants it passes are never used: for every input, UQI equals SSIM with a uniform window and the default K1=0.01, K2=0.03. Consequently UQI depends on data_range and is not invariant under scaling both images, whereas the documented index is.", "quantifier": "all images and data ranges (equality), existence of a witness (dependence)", "why_tests_cant": "the equality is universal; the values look plausible on any single image", "anchors": ["src/viqa/fr_metrics/uqi.py:UQI.score", "src/viqa/fr_metrics/ssim.py:structural_similarity"]}
{"id": "C30", "title": "Chromatic SSIM averages after weighting", "statement": "For colour images the SSIM score is the mean, not the sum, of weight*channel score: with weights that add up to 1 an image compared with itself scores 1/3; the score of identical images is 1 exactly when the weights add up to 3.", "quantifier": "all colour images and weight vectors", "why_tests_cant": "needs all weights", "anchors": ["src/viqa/fr_metrics/ssim.py:SSIM.score"]}
{"id": "C31", "title": "GSM of identical images", "statement": "For identical images whose strongest gradient image attains a positive maximum, GSM is exactly 1; for images without any gradient (e.g. constant images) it is not a number.", "quantifier": "all image pairs", "why_tests_cant": "all images", "anchors": ["src/viqa/fr_metrics/gsm.py:gradient_similarity"]}
{"id": "C32", "title": "GSM bounds and symmetry", "statement": "With a positive gradient maximum, pixel differences within data_range, c >= 0 and 0 <= p <= 1, every pixel contribution and hence GSM is at most 1 (or NaN). For float images GSM is symmetric unless two different gradient images have equal mean magnitude. The documented range [0, 1] does not hold: opposite steps score below -1, in a tie the order of the images matters, and if all gradient values are negative the score can exceed 1.", "quantifier": "all image pairs, c > 0, 0 <= p <= 1", "why_tests_cant": "all images", "anchors": ["src/viqa/fr_metrics/gsm.py:gradient_similarity"]}
{"id": "C33", "title": "GSM luminance term wraps for 8-bit images", "statement": "For unsigned 8-bit images the luminance difference is taken modulo 256: a modified image that is brighter by one grey level is treated as if it differed by 255, so the luminance similarity is not symmetric and not monotone in the difference. For float images it is symmetric and decreasing in the absolute difference.", "quantifier": "all pixel pairs", "why_tests_cant": "all pixel values/existence", "anchors": ["src/viqa/fr_metrics/gsm.py:gradient_similarity"]}
{"id": "C34", "title": "Gradient kernels ignore flat regions", "statement": "Every gradient kernel (GSM, Sobel, Prewitt, Scharr; 2D and 3D, including the rotated ones) sums to zero, so on any region of constant grey value its response is exactly 0, and adding a constant to an image does not change any gradient; each kernel is antisymmetric under point reflection, so convolution is correlation with opposite sign.", "quantifier": "all images and all kernels", "why_tests_cant": "all images", "anchors": ["src/viqa/kernels.py"]}
{"id": "C35", "title": "MAD combination", "statement": "For non-negative detection and appearance indices and positive beta parameters MAD lies between the smaller and the larger of the two indices, is 0 when the detection index is 0, and the weight of the detection index decreases from 1 towards 0 as detection grows.", "quantifier": "all non-negative indices and positive parameters", "why_tests_cant": "real-valued inequality", "anchors": ["src/viqa/fr_metrics/mad.py:most_apparent_distortion"]}
{"id": "C36", "title": "MAD of identical images is 0", "statement": "Identical images give detection index 0 for every image shape, and appearance index 0 for every square image (block size at least 2, weights that do not sum to 0), whenever at least one pixel survives the border removal; so MAD of identical square images whose side is a multiple of the stride is 0 with the default overlap.", "quantifier": "all images and filter banks", "why_tests_cant": "all images", "anchors": ["src/viqa/fr_metrics/mad.py:_high_quality", "src/viqa/fr_metrics/mad.py:_low_quality"]}
{"id": "C37", "title": "MAD block bookkeeping", "statement": "With the default 75% overlap the high-quality index assigns block statistics without running out of blocks exactly when both image sides are multiples of the stride; any other size raises IndexError. When it succeeds, the statistics of the block starting at (i*stride, j*stride) are written to the stride x stride tile at the same position. With another overlap (e.g. 50%) the running numbers of tiles and blocks disagree and tiles get the statistics of blocks elsewhere in the image.", "quantifier": "all image sizes, block sizes divisible by 4", "why_tests_cant": "size arithmetic over all sizes", "anchors": ["src/viqa/fr_metrics/mad.py:_high_quality", "src/viqa/utils/misc.py:_extract_blocks"]}
{"id": "C38", "title": "MAD border removal", "statement": "After removing block_size pixels on each side the averaged area is (m-2*bs) x (n-2*bs) if both are positive and empty otherwise; the block size check only demands block_size <= side, so every image with a side in [bs, 2*bs] is accepted and yields not-a-number instead of an error.", "quantifier": "all image and block sizes", "why_tests_cant": "all sizes", "anchors": ["src/viqa/fr_metrics/mad.py:most_apparent_distortion", "src/viqa/fr_metrics/mad.py:_high_quality"]}
{"id": "C39", "title": "C statistics kernels: memory safety", "statement": "An access outside the buffers happens in minstd and getstatistics exactly when some multiple k*stride satisfies rows < k*stride+block_size <= columns; in particular never for images with at least as many rows as columns, always with at least a stride more columns than rows. For square images every pixel at distance >= block size from the border (the only ones MAD uses) is independent of the initial content of the buffers; with at least stride+2 more rows than columns a pixel of that area is returned uninitialised.", "quantifier": "all image sizes, block sizes and strides", "why_tests_cant": "out-of-bounds reads are silent", "anchors": ["src/viqa/fr_metrics/stat_utils/statisticsmodule.c:minstd", "src/viqa/fr_metrics/stat_utils/statisticsmodule.c:getstatistics"]}
{"id": "C40", "title": "C minimum standard deviation search", "statement": "The neighbourhood minimum in minstd is only taken for tiles whose index is below half the block size; for every other tile the loops do not run and the plain block standard deviation is returned.", "quantifier": "all tiles, block sizes and strides", "why_tests_cant": "silent logic error on all inputs", "anchors": ["src/viqa/fr_metrics/stat_utils/statisticsmodule.c:minstd"]}
{"id": "C41", "title": "Lightness lookup", "statement": "For integer images with all values in [0, data_range] the table lookup gives exactly b + k*v^(gamma/3), the same as the float path; a value above data_range raises IndexError; a negative value silently takes the lightness of a bright pixel (data_range+1+v).", "quantifier": "all integer pixel values and data ranges", "why_tests_cant": "all values", "anchors": ["src/viqa/fr_metrics/mad.py:_pixel_to_lightness"]}
{"id": "C42", "title": "Slice selection of slice-wise metrics", "statement": "For 3D images with dim in {0,1,2} and an integer slice, MS-SSIM, FSIM, VIFp, VSI, MAD and GSM score exactly the 2D slices [s,:,:], [:,s,:] or [:,:,s] of both images; an integer slice with another dim, or a missing dim, raises ValueError; for 2D images both arguments are ignored.", "quantifier": "all argument combinations and images", "why_tests_cant": "argument space", "anchors": ["src/viqa/fr_metrics/msssim.py:MSSSIM.score", "src/viqa/fr_metrics/fsim.py:FSIM.score", "src/viqa/fr_metrics/vif.py:VIFp.score", "src/viqa/fr_metrics/vsi.py:VSI.score", "src/viqa/fr_metrics/mad.py:MAD.score", "src/viqa/fr_metrics/gsm.py:GSM.score"]}
{"id": "C43", "title": "Full-volume scores ignore dim", "statement": "Without a slice, MAD and GSM average the 2D scores over the slices of the requested dimension and reject dim outside 0..2, but MS-SSIM, FSIM, VIFp and VSI always use the slices along the last axis whatever dim is and accept any dim, so the documented choice of dimension has no effect.", "quantifier": "all volumes and dim values", "why_tests_cant": "universal independence statement", "anchors": ["src/viqa/fr_metrics/msssim.py:MSSSIM.score", "src/viqa/utils/misc.py:_check_chromatic"]}
{"id": "C44", "title": "VSI cannot score RGB images directly", "statement": "VSI is documented to support colour, but an RGB pair with chromatic=True is treated as a volume: without dim it always raises ValueError, and with a full-volume dim the colour tensor is used; MS-SSIM, FSIM and VIFp accept the same call.", "quantifier": "all RGB images", "why_tests_cant": "all images", "anchors": ["src/viqa/fr_metrics/vsi.py:VSI.score"]}
{"id": "C45", "title": "CNR value and invariance", "statement": "CNR equals (mean of signal region - mean of background region)/population standard deviation of the background region, 0 if that deviation is 0; it is unchanged by adding a constant to the image or scaling it by a positive factor, changes sign under negation and is 0 if both regions coincide.", "quantifier": "all images, regions and affine maps", "why_tests_cant": "all images", "anchors": ["src/viqa/nr_metrics/cnr.py:contrast_to_noise_ratio"]}
{"id": "C46", "title": "SNR value and scaling", "statement": "SNR of a grey image equals mean/population standard deviation over the signal region, 0 if the deviation is 0; it is invariant under positive scaling but not under offsets: adding a positive constant increases it for every region with noise.", "quantifier": "all images and regions", "why_tests_cant": "all images", "anchors": ["src/viqa/nr_metrics/snr.py:signal_to_noise_ratio"]}
{"id": "C47", "title": "Region masks", "statement": "For centres at least radius away from the lower and upper border the cubic region consists of exactly the voxels with c-r <= i < c+r per axis (2r voxels per axis, hence (2r)^d in total, not centred on c), and the spherical region of exactly the voxels with squared distance at most r^2.", "quantifier": "all image shapes, centres and radii", "why_tests_cant": "all geometries", "anchors": ["src/viqa/utils/misc.py:_to_cubic", "src/viqa/utils/misc.py:_to_spherical"]}
{"id": "C48", "title": "Border check", "statement": "The centre check of CNR/SNR rejects exactly the centres with |c| < radius on some axis. It does not look at the upper border or at signs: centres beyond the image and negative centres with large magnitude pass and lead to truncated or empty cubic regions.", "quantifier": "all centres, radii and shapes", "why_tests_cant": "all coordinates", "anchors": ["src/viqa/utils/misc.py:_check_border_too_close", "src/viqa/nr_metrics/cnr.py:contrast_to_noise_ratio"]}
{"id": "C49", "title": "Colour CNR", "statement": "CNR of an (H, W, 3) image always raises ValueError, because the dimension check demands 3-component centres and the region builder 2-component ones (for cubic and spherical regions).", "quantifier": "all colour images and centres", "why_tests_cant": "all inputs", "anchors": ["src/viqa/nr_metrics/cnr.py:contrast_to_noise_ratio", "src/viqa/utils/misc.py:_to_cubic"]}
{"id": "C50", "title": "Stored centres", "statement": "score() of CNR/SNR uses the centres and radius given in the call only if all of them are given; as soon as one is missing all of them are taken from the stored parameters, silently discarding those given; each call overwrites the stored parameters so a later call without centres reuses the last ones; with nothing stored ValueError is raised.", "quantifier": "all call sequences", "why_tests_cant": "histories of calls", "anchors": ["src/viqa/nr_metrics/cnr.py:CNR.score", "src/viqa/nr_metrics/snr.py:SNR.score"]}
{"id": "C51", "title": "SNR cannot be used in batch mode", "statement": "A batch or multi-metric run containing SNR always fails with TypeError (the metric has no name and its score is a tuple), for every image and parameter for which SNR itself returns.", "quantifier": "all images, metric lists containing SNR", "why_tests_cant": "universal", "anchors": ["src/viqa/nr_metrics/snr.py:SNR.__init__", "src/viqa/multiple.py:_calc"]}
{"id": "C52", "title": "Q-Measure grey-value range", "statement": "The grey-value range handed to the Q-Measure kernel is the image range truncated towards zero; it contains every pixel for integer-valued images, but for images normalised to 0..1 it degenerates to (0, 1) or (0, 0), and images with negative fractional minimum or positive fractional maximum have pixels outside the range.", "quantifier": "all images", "why_tests_cant": "all images", "anchors": ["src/viqa/nr_metrics/qmeasure.py:QMeasure.score"]}
{"id": "C53", "title": "Batch results equal single results", "statement": "Without ROIs and with images of equal shape, a batch run gives for every pair exactly the scores that scoring this pair alone would give, for every order and repetition of pairs, although images and no-reference scores are cached between consecutive pairs.", "quantifier": "all pair lists (any length, order, repetitions), all metrics, all images", "why_tests_cant": "cache correctness over all sequences", "anchors": ["src/viqa/multiple.py:BatchMetrics.calculate", "src/viqa/multiple.py:_calc"]}
{"id": "C54", "title": "Batch caching is wrong with per-pair ROIs", "statement": "With per-pair ROIs the cache is keyed by file name only: two consecutive identical pairs with different ROIs get the first ROI's scores, and a no-reference score of an image repeated in the next pair is reused although the ROI changed. If consecutive pairs that share a file also share the ROI, results are still the single-pair results.", "quantifier": "all pair lists and ROI lists (sufficient condition), existence of a wrong result", "why_tests_cant": "depends on sequences", "anchors": ["src/viqa/multiple.py:BatchMetrics.calculate"]}
{"id": "C55", "title": "Batch caching is wrong after resizing", "statement": "When a modified image is repeated with reference images of different shapes, its no-reference score is taken from the previous pair although the image was resized differently; scoring the pair alone gives another value.", "quantifier": "existence, and correctness under equal shapes", "why_tests_cant": "depends on sequences", "anchors": ["src/viqa/multiple.py:BatchMetrics.calculate", "src/viqa/multiple.py:_calc"]}
{"id": "C56", "title": "Batch result structure", "statement": "After a successful run results has exactly the keys '0'..'n-1' in order, and every entry has the same columns in the same order: for each metric its name, or name_r and name_m for no-reference metrics; values belong to the pair with that number.", "quantifier": "all pair and metric lists", "why_tests_cant": "all lists", "anchors": ["src/viqa/multiple.py:BatchMetrics.calculate", "src/viqa/multiple.py:_calc"]}
{"id": "C57", "title": "Batch CSV alignment", "statement": "The exported CSV has one row per pair, in order, and each row has as many values as the header has columns, each under the header of its metric; exporting before calculating raises KeyError.", "quantifier": "all runs", "why_tests_cant": "all runs", "anchors": ["src/viqa/multiple.py:BatchMetrics.export_results"]}
{"id": "C58", "title": "Metrics with equal names collide", "statement": "If two metrics in one run have the same name (e.g. two PSNR instances with different data ranges) only one column is reported, at the first position with the value of the last; with pairwise different names no value is lost.", "quantifier": "all metric lists", "why_tests_cant": "all lists", "anchors": ["src/viqa/multiple.py:_calc"]}
{"id": "C59", "title": "ROI list checking", "statement": "A ROI list of wrong non-zero length is rejected at construction; an empty ROI list is accepted for any number of pairs and then makes calculate fail with IndexError on the first pair unless a global ROI is passed. A global ROI overrides the ROI list.", "quantifier": "all pair and ROI lists", "why_tests_cant": "all lists", "anchors": ["src/viqa/multiple.py:BatchMetrics.__init__"]}
{"id": "C60", "title": "Exporting metric results", "statement": "export_results writes one row per scored metric in order and leaves out unscored ones, but marks unscored metrics with the text 'n/a' as their score: a second export of the same list writes them as rows, and comparing or fusing them afterwards fails or misbehaves. For lists of scored metrics exporting is idempotent. The returned dictionary has one entry per name, that of the last metric with the name. The file lies in the given folder, with or without a slash at the end of its name; absolute file names ignore the folder.", "quantifier": "all metric lists", "why_tests_cant": "state change across calls", "anchors": ["src/viqa/utils/export.py:export_results"]}
{"id": "C61", "title": "Comparison image: every metric printed once", "statement": "export_image prints every full-reference metric exactly once, four per column, in order, and every no-reference metric exactly once in the last column; two different full-reference metrics never share a position, but more than four no-reference metrics run below the plot and metrics whose name ends in _r/_m are classified as no-reference.", "quantifier": "all result dictionaries", "why_tests_cant": "all sizes", "anchors": ["src/viqa/utils/export.py:export_image"]}
{"id": "C62", "title": "Comparison image: slice choice", "statement": "For volumes exactly one of x, y, z must be given; the check compares values instead of arguments, so giving two axes the same index passes and x wins over y over z. The plotted slice of both images is the requested one.", "quantifier": "all argument combinations", "why_tests_cant": "argument space", "anchors": ["src/viqa/utils/export.py:export_image"]}
{"id": "C63", "title": "File name extensions on export", "statement": "export_results appends .csv unless the name already ends in .csv in any case, so the written name always ends in .csv; the batch/multi exporters instead require exactly '.csv' (or '.txt') and raise ValueError otherwise, in particular for upper-case extensions and for the bare name '.csv'. Kept are exactly the names that end in one of the eight spellings of .csv.", "quantifier": "all file names", "why_tests_cant": "all strings", "anchors": ["src/viqa/utils/export.py:export_results", "src/viqa/multiple.py:BatchMetrics.export_results", "src/viqa/utils/export.py:export_metadata"]}
{"id": "C64", "title": "visualize_3d bounds", "statement": "visualize_3d rejects slices outside [-n, n] with ValueError, but accepts the index n which does not exist and then fails with IndexError; every slice in [-n, n-1] is valid. Slices that are not three integers, and images that are not three-dimensional, raise ValueError; True and False pass the type check and never give a figure.", "quantifier": "all shapes and slice triples", "why_tests_cant": "off-by-one over all sizes", "anchors": ["src/viqa/utils/visualization.py:visualize_3d"]}
{"id": "C65", "title": "CNR visualisation always fails", "statement": "CNR.visualize_centers never passes the mandatory region type to the plotting function: every call that gets past the input checks raises TypeError, unless the caller supplies region_type as an extra keyword. If a centre or the radius is missing, all three stored values are used, each in its role, or ValueError is raised if one of them is missing; for volumes errors of matplotlib about the other keywords come through.", "quantifier": "all images, centres and keywords", "why_tests_cant": "universal", "anchors": ["src/viqa/nr_metrics/cnr.py:CNR.visualize_centers", "src/viqa/utils/visualization.py:_visualize_cnr_2d"]}
{"id": "C66", "title": "correlate_convolve_abs window", "statement": "The result at a pixel averages |kernel*image| over a window that lies entirely above/left of the pixel (from pixel-k to pixel-1 per axis), not centred on it; the first row and column depend on the padding only. Results are non-negative, and scale with the absolute value of a factor applied to the image (zero padding).", "quantifier": "all images, kernels and pixels", "why_tests_cant": "all images", "anchors": ["src/viqa/utils/misc.py:correlate_convolve_abs"]}
{"id": "C67", "title": "Block extraction", "statement": "_extract_blocks returns exactly the blocks whose top-left corner is a multiple of the stride and which fit into the image, in row-major order, each with the image's pixels.", "quantifier": "all image, block and stride sizes", "why_tests_cant": "all sizes", "anchors": ["src/viqa/utils/misc.py:_extract_blocks"]}
{"id": "C68", "title": "Automatic region", "statement": "The automatically found region is centred on the first voxel of maximal distance to the background of the cleaned binary image, its radius is that distance rounded down, and the cleaned image is true on every in-image voxel closer to the centre than that radius; non-binary or constant images raise ValueError.", "quantifier": "all binary images and iteration counts", "why_tests_cant": "all images", "anchors": ["src/viqa/utils/misc.py:find_largest_region"]}
{"id": "C69", "title": "RGB to YUV uses the transposed matrix", "statement": "The colour transform multiplies the pixel from the left with the documented matrix, i.e. applies its transpose: the first output channel of a grey pixel (g,g,g) is 0.72769*g instead of the documented luminance g, and the chroma channels of grey pixels are not 0 whenever g is not 0. The transform is linear.", "quantifier": "all pixels", "why_tests_cant": "all pixels", "anchors": ["src/viqa/utils/misc.py:_rgb_to_yuv", "src/viqa/nr_metrics/snr.py:signal_to_noise_ratio"]}
{"id": "C70", "title": "Percentile binarisation", "statement": "The binary mask contains exactly the pixels above the lower and not above the upper percentile; adjacent percentile bands are disjoint and together cover the pixels above the lowest percentile; with upper percentile 100 every maximal pixel is included unless it equals the lower percentile.", "quantifier": "all images and percentiles", "why_tests_cant": "all images", "anchors": ["src/viqa/utils/misc.py:_get_binary"]}
{"id": "C71", "title": "Stale image statistics", "statement": "Statistics stored on an ImageArray are inherited by slices, crops and copies taken from it, so describe() of a crop reports the statistics of the full image until recalculated; results of arithmetic start without statistics; for integer images the histogram is never stored.", "quantifier": "all operation sequences on an ImageArray", "why_tests_cant": "histories of operations", "anchors": ["src/viqa/utils/loading.py:ImageArray.__array_finalize__", "src/viqa/utils/loading.py:ImageArray.calculate_statistics", "src/viqa/utils/loading.py:ImageArray.describe"]}
{"id": "C72", "title": "Projection reduction script", "statement": "reduce_projections keeps exactly the projections 0, f, 2f, ... unchanged and in order (ceil(n/f) of them) for f >= 2, refuses f = 1, f = 0 and files of the wrong size, and takes every |f|-th projection backwards from the last one for negative f; an output name without a folder is never written.", "quantifier": "all stacks and factors", "why_tests_cant": "all sizes", "anchors": ["src/scripts/reduce_projections.py:get_n_projections", "src/scripts/reduce_projections.py:load_projection"]}
{"id": "C73", "title": "Volume crop script", "statement": "For volumes with equal x and y extent the crop script writes the central sub-volume under a name from which it can be loaded again; for different x and y extents the slices are read with swapped axes, so that a volume of distinct voxels does not give any box of the input volume. Factors 1 and 0 are refused, negative factors write an empty file; a name without sizes is kept, and the result cannot be loaded.", "quantifier": "all volumes and factors", "why_tests_cant": "all sizes", "anchors": ["src/scripts/crop_image.py:load_volume", "src/scripts/crop_image.py:crop", "src/scripts/crop_image.py:save_volume"]}
{"id": "C74", "title": "Stack combination script", "statement": "Combining single-slice images and loading the written volume gives every slice transposed, in the order in which the files were found: loaded[y, x, k] is slice k at [x, y]; slices of more than one plane produce a file whose name does not match its size, so it cannot be loaded; no files end in AttributeError, a file of the wrong size in ValueError.", "quantifier": "all stacks", "why_tests_cant": "all sizes", "anchors": ["src/scripts/combine_stack.py:combine_image_stack", "src/scripts/combine_stack.py:save_volume"]}
{"id": "C75", "title": "Pair list script", "statement": "write_to_csv lists exactly the (reference, modified) pairs where the first three characters of the modified file name equal the reference name up to its first dot; references whose stem is not exactly three characters long therefore never appear (unless the modified name is shorter).", "quantifier": "all file lists", "why_tests_cant": "all names", "anchors": ["src/scripts/write_to_csv.py:write_to_csv"]}
{"id": "C76", "title": "Optional imports", "statement": "try_import reports failure with (None, False) for a missing module and success with the object otherwise, but a module that exists without the requested attribute raises AttributeError instead of being reported; the interactive-dependency check raises ImportError exactly when something is missing and names exactly the missing ones.", "quantifier": "all modules/attributes, all flag combinations", "why_tests_cant": "environment dependent", "anchors": ["src/viqa/utils/_module.py:try_import", "src/viqa/utils/_module.py:check_interactive_vis_deps"]}
{"id": "C77", "title": "Gradient kernels measure slopes", "statement": "On any image that is a linear ramp, at every pixel whose window lies inside the image, the response of each of the 32 gradient kernels is the inner product of the slopes with a fixed gain per axis: the axis kernels respond to their own axis only (56 for GSM 3D, 12 Sobel, 6 Prewitt, 700 Scharr; with opposite sign in the 2D Sobel/Prewitt/Scharr kernels). No 3D kernel, not even the four named xyz, responds to all three axes, and the two 2D kernels named diagonal have gains 26 and 6 along the two axes instead of equal ones.", "quantifier": "all kernels, all ramps, all interior pixels, all border modes", "why_tests_cant": "all slopes, sizes and positions", "anchors": ["src/viqa/kernels.py"]}
{"id": "C78", "title": "The masking deviation is taken over real and imaginary parts", "statement": "np.real of the complex filter result is a strided view and minstd ignores strides, so it reads real and imaginary parts alternately: it only sees the first half of the filtered image, and for a constant non-zero real part with zero imaginary part it returns a positive deviation at every pixel MAD uses although every block is constant. This is what happens for every uniform reference image with the contrast sensitivity filter of the package.", "quantifier": "all image sizes, block sizes, strides and filter results", "why_tests_cant": "The statement is about every filter result and buffer content; a test compares one score that nobody can check by hand.", "anchors": ["src/viqa/fr_metrics/mad.py:_high_quality", "src/viqa/fr_metrics/stat_utils/statisticsmodule.c:minstd", "src/viqa/fr_metrics/stat_utils/statisticsmodule.c:pymatrix_to_Carrayptrs"]}
{"id": "C79", "title": "MAD without blocks is 0", "statement": "With block_size=1, documented as 'no blocks', the detection index is 0 and hence MAD is 0 for every pair of images with at least as many rows as columns and at least 3 columns, however different the images are; the appearance index of square images is not a number.", "quantifier": "all pairs of images, filters, overlaps and parameters", "why_tests_cant": "A test on a few pairs cannot show that no pair of images ever gets a score other than 0.", "anchors": ["src/viqa/fr_metrics/mad.py:most_apparent_distortion", "src/viqa/fr_metrics/mad.py:_high_quality", "src/viqa/fr_metrics/mad.py:_low_quality"]}
{"id": "C80", "title": "MAD appearance index is symmetric", "statement": "For square images the appearance index does not change when reference and modified image are exchanged; it is the root mean square, over the pixels not removed at the border, of the differences of block deviation, skewness (doubled) and kurtosis of the filtered images, summed over orientations and weighted by scale; a number of weights different from the number of scales raises ValueError, no orientations ZeroDivisionError.", "quantifier": "all square images, filter banks, block sizes and strides", "why_tests_cant": "Symmetry over all images and filter banks.", "anchors": ["src/viqa/fr_metrics/mad.py:_low_quality"]}
{"id": "C81", "title": "Chromatic mode of the slice-wise metrics", "statement": "With chromatic=True MS-SSIM, FSIM, VIFp and VSI refuse every 2D image and every slice of a volume with RuntimeError (IndexError if the slice does not exist), and hand a full volume to the kernel as one image with as many channels as the volume has slices.", "quantifier": "all images, volumes, dim and slice arguments", "why_tests_cant": "all argument combinations and shapes", "anchors": ["src/viqa/utils/misc.py:_check_chromatic", "src/viqa/fr_metrics/msssim.py:MSSSIM.score"]}
{"id": "C82", "title": "Colour images and narrow images in SNR", "statement": "SNR of a non-empty (H, W, 3) image with the default cubic region raises numpy's MaskError for every valid centre, because the mask already has three channels when it is repeated; SNR of a colour image without the YUV transform fails in every call; a two-dimensional image with three columns cannot be scored with any region that needs a centre, given or found, because the dimension check takes it for a colour image. With the YUV transform and a full, original or spherical region the three results are the mean of the first channel divided by the standard deviation of each channel over the region, and 0 for channels without spread or without pixels, the channels being those of the transposed matrix.", "quantifier": "all images, centres, radii and options", "why_tests_cant": "the failures hold for every image and parameter combination, which no finite set of calls shows", "anchors": ["src/viqa/nr_metrics/snr.py:signal_to_noise_ratio", "src/viqa/utils/misc.py:_to_cubic"]}
{"id": "C83", "title": "Keywords of a scoring call are remembered", "statement": "Every keyword passed to score() of CNR or SNR, a region of interest for example, is written to the stored parameters and is therefore seen by the loading step of all later calls, so that a later call without it still applies it.", "quantifier": "all keywords, values and call sequences", "why_tests_cant": "state leaks between arbitrary sequences of calls", "anchors": ["src/viqa/nr_metrics/cnr.py:CNR.score", "src/viqa/nr_metrics/snr.py:SNR.score"]}
{"id": "C84", "title": "Found regions lie inside the image", "statement": "Centre and radius found automatically satisfy radius <= c and c + radius <= n - 1 on every axis, so the border check of the metrics never rejects them; the radius is 0 exactly if cleaning removes everything, which is always the case if an axis is shorter than 2*iterations + 3, and then CNR with automatic centres raises TypeError.", "quantifier": "all binary images, iteration counts and region types", "why_tests_cant": "depends on the geometry of arbitrary binary images", "anchors": ["src/viqa/utils/misc.py:find_largest_region", "src/viqa/nr_metrics/cnr.py:contrast_to_noise_ratio"]}
{"id": "C85", "title": "Region type with automatic centres", "statement": "With automatic centres an unknown region type behaves exactly like 'full' instead of being rejected, whereas with given centres it never succeeds; the region of type 'full' is the cleaned binary image, the two additional erosions computed for it have no effect.", "quantifier": "all images and parameters", "why_tests_cant": "equality of two code paths for all images", "anchors": ["src/viqa/nr_metrics/cnr.py:contrast_to_noise_ratio", "src/viqa/utils/misc.py:find_largest_region"]}
{"id": "C86", "title": "Q-Measure reads raw memory", "statement": "The Q-Measure kernel receives the voxels in memory order: row-major for arrays made by numpy, column-major for volumes loaded from files, although the dimensions passed with them are the same; there are images for which the two differ. Double-precision volumes are read as single-precision words, so only the first half of the voxels in memory influences the buffer.", "quantifier": "all volumes and memory layouts", "why_tests_cant": "memory layout is not observable in the image values", "anchors": ["src/viqa/nr_metrics/qmeasure.py:QMeasure.score", "src/viqa/nr_metrics/qmeasure_utils/qmeasurecalcmodule.cpp"]}
{"id": "C87", "title": "Colour images in batch and multi-metric runs", "statement": "Passing chromatic=True to a batch or multi-metric run always ends in TypeError before any metric is computed. Without it, colour images are converted to two-dimensional grey images before any metric sees them, so a metric that needs colour input rejects every such pair (unless the image is three pixels wide).", "quantifier": "all metric lists, images and options", "why_tests_cant": "holds for every image and every metric list", "anchors": ["src/viqa/multiple.py:_calc", "src/viqa/utils/loading.py:load_data"]}
{"id": "C88", "title": "Repeated 16-bit normalisation in batch and multi-metric runs", "statement": "If the integer 65535 given by the user is not the same object as the type limit, normalize=True with data_range=65535 is applied twice by MultipleMetrics and three times by BatchMetrics. For every floating-point greyscale image the metrics of MultipleMetrics then see 1 where the normalised grey value is 1 and 0 everywhere else; those of BatchMetrics see 65535 and 0 in the same places, or only NaN if no pixel has the grey value 1. So the two give different results for the same pair. With data_range=255 loading again never changes the image.", "quantifier": "all floating-point greyscale image pairs of equal shape, all metrics", "why_tests_cant": "all images; depends on object identity of integers", "anchors": ["src/viqa/multiple.py:BatchMetrics.calculate", "src/viqa/multiple.py:_calc", "src/viqa/utils/loading.py:normalize_data"]}
{"id": "C89", "title": "Content of the metadata file", "statement": "export_metadata writes the version and time heading and then, for each metric in order, the class name, a line of dashes of the same length, the data range, one line per custom parameter and a blank line; parameter dictionaries beyond the number of metrics are ignored. With fewer parameter dictionaries than metrics it raises IndexError and leaves a file that stops inside the first metric without parameters. Every constructed metric has a data_range entry. A metric without a data_range entry ends the file behind its heading with KeyError. Different classes have different headings.", "quantifier": "all metric lists, parameter lists, scores and value formats", "why_tests_cant": "all lists", "anchors": ["src/viqa/utils/export.py:export_metadata"]}
{"id": "C90", "title": "Comparison image: orientation and colour", "statement": "A two-dimensional image is shown turned by 180 degrees: row p, column q of the picture is pixel (h-1-p, w-1-q). export_image never draws in colour: colour images are converted to grey values before its colour branch is reached, and a two-dimensional greyscale image three pixels wide cannot be drawn at all.", "quantifier": "all images", "why_tests_cant": "all images", "anchors": ["src/viqa/utils/export.py:export_image"]}
{"id": "C91", "title": "From export_results to export_image", "statement": "The dictionary returned by export_results(return_dict=True) can be given to export_image only if every metric is scored and has a name: as soon as one metric of the list is unscored (stored as 'n/a') or nameless (SNR), no figure is produced. If all have a name and a number, every label is drawn.", "quantifier": "all metric lists and images", "why_tests_cant": "all lists", "anchors": ["src/viqa/utils/export.py:export_results", "src/viqa/utils/export.py:export_image"]}
{"id": "C92", "title": "Reports", "statement": "BatchMetrics.report before calculate empties results.csv and raises KeyError, or AttributeError if only images are asked for; after a successful run csv file and metadata are written. Its figures are saved one per pair under pairwise different names and not shown, except that with an empty file path they are shown and not saved. MultipleMetrics.report with image=True and a missing image writes nothing and raises ValueError; without images it always writes csv file and metadata, even before any calculation. Figure n of a batch report shows the two images of pair n, loaded from the given directory, with the region and the results of that pair. MultipleMetrics.report saves its figure only if export_image is set and shows it otherwise.", "quantifier": "all metric lists, pairs, results, paths and project names without a slash", "why_tests_cant": "all runs", "anchors": ["src/viqa/multiple.py:BatchMetrics.report", "src/viqa/multiple.py:MultipleMetrics.report"]}
{"id": "C93", "title": "The figure shows the scored images", "statement": "Without normalisation and with the same interpolation order the images in the comparison figure are exactly those handed to the metrics. The figure ignores the normalisation of the run: files of equal size but different element types are scored after normalisation, but no figure can be made of them.", "quantifier": "all images, regions and loading options", "why_tests_cant": "all images", "anchors": ["src/viqa/utils/export.py:export_image", "src/viqa/multiple.py:BatchMetrics.report"]}
{"id": "C94", "title": "Crosshair of slice views", "statement": "visualize_3d with valid non-negative indices shows the requested slice in each of the three panels and its lines cross at the chosen voxel in each of them; with negative indices the slices are those counted from the end, but the lines are drawn at the negative coordinates, outside the pictures.", "quantifier": "all volumes, all slice indices", "why_tests_cant": "figures are not compared; the orientation of three panels has to be right for all shapes", "anchors": ["src/viqa/utils/visualization.py:639-716"]}
{"id": "C95", "title": "Drawn regions and scored regions", "statement": "In volumes the rectangles and circles drawn by visualize_centers cover, in each of the three panels, exactly the voxels that are scored (rectangles additionally the far edge centre+radius); in 2D images rows and columns of the region are exchanged, and the SNR panel and the signal panel of CNR show the mirrored picture, so the drawn region need not contain a single scored pixel.", "quantifier": "all images, centres and radii that pass the checks", "why_tests_cant": "needs relating drawing coordinates to array indices for all images", "anchors": ["src/viqa/utils/visualization.py:44-572", "src/viqa/utils/misc.py:587-639"]}
{"id": "C96", "title": "SNR region display", "statement": "SNR.visualize_centers with an explicit signal array of two or more elements always raises ValueError; once a region has been computed stored centre and radius are ignored, so cubic and spherical regions without radius raise TypeError; the 'full' region is drawn unmirrored on a mirrored 2D picture, and aligned with the picture in volumes. Without a computed region 'full' and 'original' show the image alone, volumes cut through the middle; otherwise a missing centre and a missing radius are each taken from the stored parameters. Signal arrays of less than two elements count only if they hold a true value. An unhashable region type raises TypeError; with a computed region a centre with too few coordinates raises IndexError.", "quantifier": "all images, regions and parameters", "why_tests_cant": "depends on the history of calls and on orientation", "anchors": ["src/viqa/nr_metrics/snr.py:167-305", "src/viqa/utils/visualization.py:342-572"]}
{"id": "C97", "title": "Start of set_centers", "statement": "set_centers writes its starting values to the parameters before anything is chosen. CNR prefers the stored values over the keywords (later calls therefore ignore all keywords), SNR prefers the keywords; after a start with 'full' or 'original' SNR stores None as centre and radius and set_centers fails with TypeError until both are given; the stored region type has no influence on score.", "quantifier": "all stored parameters and keywords", "why_tests_cant": "interactive code that is not run in tests; depends on sequences of calls", "anchors": ["src/viqa/nr_metrics/cnr.py:316-449", "src/viqa/nr_metrics/snr.py:369-609", "src/viqa/nr_metrics/snr.py:110-148"]}
{"id": "C98", "title": "ImageArray.visualize", "statement": "Showing an image through its method works for planes (slices are ignored) and for volumes with slices, where the chosen voxel lies under the lines of all three panels; a volume without slices and images of other dimensions are refused with ValueError, and so are colour images, although the method has a branch for them.", "quantifier": "all images and slices", "why_tests_cant": "figures are not inspected by tests; the failing colour branch is not run", "anchors": ["src/viqa/utils/loading.py:289-338", "src/viqa/utils/visualization.py:visualize_2d", "src/viqa/utils/visualization.py:visualize_3d"]}
{"id": "C99", "title": "Copying in the pair list script", "statement": "With the word 'copy' the folder 'images' afterwards holds its old files unchanged and, under every other listed name, the first file asked for; a reference and a modified image of the same name are therefore one file, and the listed pair compares the reference with itself. If the target exists without that folder, the script fails with FileNotFoundError after the first pair; without the fourth argument, described as optional, it fails with IndexError and writes nothing.", "quantifier": "all folders and file names", "why_tests_cant": "all names and contents of the target folder; the scripts have no tests", "anchors": ["src/scripts/write_to_csv.py:write_to_csv", "src/scripts/write_to_csv.py:copy_file", "src/scripts/write_to_csv.py:61-83"]}
{"id": "C100", "title": "mat export script", "statement": "write_to_mat writes one file per sub-folder in the order found, holding the loaded image stretched to 0..1; a constant image is stored as not-a-number everywhere without an error. The first sub-folder whose volume cannot be loaded or normalised stops the script, the files before it are already written.", "quantifier": "all folders and images", "why_tests_cant": "all images and failure positions; the scripts have no tests", "anchors": ["src/scripts/write_to_mat.py:write_to_mat", "src/scripts/write_to_mat.py:50-62"]}
{"id": "C101", "title": "Border modes of the windows", "statement": "The window filters read the pixel itself inside the image; outside, 'reflect' repeats the edge pixel with period 2n, 'mirror' does not repeat it and has period 2n - 2, 'nearest' takes the edge pixel, 'wrap' has period n and 'constant' the fill value; every other mode name is unknown.", "quantifier": "all positions, lengths and names", "why_tests_cant": "all positions far outside the image and all image sizes", "anchors": ["src/viqa/fr_metrics/ssim.py:345-353"]}
{"id": "C102", "title": "CNR widgets store what they show", "statement": "After set_centers of CNR and any sequence of slider events of which none raised, 'Save' stores exactly the centres and the radius the sliders show, and both regions lie inside the image. Every slider changes its own coordinate of its own centre, kept at least radius+1 from both borders, and nothing else that is saved; without touching a slider the start values are saved, moved inside those limits. A radius change raises iff the new radius differs from the old one and is half of the shortest axis (the largest value the slider offers); after such a failure a region that leaves the image can be saved.", "quantifier": "all image shapes with two or three axes, start values, stored parameters and event sequences", "why_tests_cant": "event sequences of any length; limits depend on all axes and on the history of the sliders", "anchors": ["src/viqa/nr_metrics/cnr.py:343-665", "src/viqa/utils/visualization.py:575-591"]}
{"id": "C103", "title": "CNR widgets share module variables", "statement": "The values that 'Save' stores are module variables shared by all CNR objects and open user interfaces: 'Save' in one of them stores what was set last in any other one, and a call of set_centers for another object, even one that fails, replaces the values.", "quantifier": "all notebooks with any number of objects and user interfaces", "why_tests_cant": "depends on the interleaving of several user interfaces", "anchors": ["src/viqa/nr_metrics/cnr.py:343-449", "src/viqa/nr_metrics/cnr.py:600-665"]}
{"id": "C104", "title": "When the sliders accept the start values", "statement": "After the checks of set_centers the values are stored in the parameters; then the user interface opens, showing the radius, iff 2 r + 2 is at most the shortest axis, otherwise TraitError is raised although the values are already stored. For CNR and SNR.", "quantifier": "all shapes, keywords, stored parameters that pass the checks", "why_tests_cant": "all shapes and radii", "anchors": ["src/viqa/nr_metrics/cnr.py:440-560", "src/viqa/nr_metrics/snr.py:586-650"]}
{"id": "C105", "title": "SNR widgets store what they show", "statement": "After set_centers of SNR and any sequence of events of which none raised, 'Save' stores the region type shown, for cubic and spherical the centre and radius shown (region inside the image), for full and original None. For images with two axes every accepted radius change raises AttributeError (slider_signal_center_z is None): the slider moves, but 'Save' stores the old radius unless the new limits moved the centre.", "quantifier": "all images, start values, stored parameters and event sequences", "why_tests_cant": "event sequences of any length", "anchors": ["src/viqa/nr_metrics/snr.py:405-448", "src/viqa/nr_metrics/snr.py:614-720"]}
{"id": "C106", "title": "Calculating the full region", "statement": "'Calculate Full Region' raises ValueError whenever the lower threshold is not below the upper one; for thresholds 0 and 100 it works for every image that is not constant. set_centers stores None for iterations and thresholds (region type not full), so a second call without these keywords starts with iterations 1 and both thresholds 0 instead of the defaults 2, 90, 99, and 'Calculate Full Region' raises.", "quantifier": "all images, keywords and stored parameters", "why_tests_cant": "all images; depends on a previous call", "anchors": ["src/viqa/nr_metrics/snr.py:405-480", "src/viqa/nr_metrics/snr.py:566-585", "src/viqa/nr_metrics/snr.py:659-705"]}
{"id": "C107", "title": "Which full region is saved", "statement": "Saving the region type full stores the module variables of the region calculated last (in any user interface, of any image, or None) with its thresholds, not a region of the shown image. What is calculated depends on the region type chosen at that moment: for original the binary image is not cleaned, and since the click switches to full, a second click gives the cleaned one.", "quantifier": "all notebooks and images", "why_tests_cant": "depends on the interleaving of several user interfaces", "anchors": ["src/viqa/nr_metrics/snr.py:405-480"]}
{"id": "C108", "title": "Weights of the contrast sensitivity filter", "statement": "_fft and _ifft undo each other for every size. The filtered image is the inverse transform of the spectrum times the contrast sensitivity of each frequency; for odd sizes a frequency gets its own weight and the filtered image is real, for even sizes it gets the weight of a point half a bin further along and the filtered image can have an imaginary part. Row frequencies are scaled by the number of columns: weights are symmetric in the axes for square images, but a non-square image and its transpose are weighted differently. A constant image is only multiplied by the weight of frequency 0, an image whose frequencies all lie below the peak by 0.9809, and all weights are positive so no two images have the same filter result. With account_monitor a frequency in cycles per pixel is weighted as that many cycles per degree as one degree of view covers pixels; without it as for 64 pixels per degree.", "quantifier": "all image sizes, images, cycles per degree and sensitivity parameters", "why_tests_cant": "A test compares one filtered image within a tolerance; the half-bin shift and the swapped scale only show as slightly different scores.", "anchors": ["src/viqa/fr_metrics/mad.py:_contrast_sensitivity_function", "src/viqa/fr_metrics/mad.py:_high_quality", "src/viqa/utils/misc.py:_fft", "src/viqa/utils/misc.py:_ifft"]}
{"id": "C109", "title": "Log-Gabor responses ignore the mean", "statement": "gabor_convolve is linear in the image; adding a constant to the image changes no response, a constant image has responses 0, and every response has mean 0. No orientations raise ZeroDivisionError, images that are not 2D raise ValueError.", "quantifier": "all image sizes (odd and even), images, scales, orientations and filter parameters", "why_tests_cant": "Over all images and filter parameters.", "anchors": ["src/viqa/utils/misc.py:gabor_convolve"]}
{"id": "C110", "title": "Frequencies passed by the log-Gabor filters", "statement": "The spectrum of a response is the spectrum of the image times a factor in [0,1]. For even sizes the factor is the log-Gabor gain (Gaussian in the logarithm of the frequency around 2/(min_wavelength*scaling^scale) times Gaussian in the angle around orientation*pi/orientations) at the frequency of the bin, and only frequency 0 is blocked. For odd sizes the filter is shifted with fftshift instead of ifftshift: every bin gets the gain of the next frequency, the frequency -1 in both axes is blocked and the expected gain is wrong. The filters of MAD have the wavelengths 3, 9, 27, 81 and 243 pixels, relative bandwidth 0.55 and an angular spread of 30 degrees.", "quantifier": "all image sizes above 1, images, bins, scales, orientations and filter parameters", "why_tests_cant": "The shift by one bin for odd sizes changes responses slightly and no reference values exist.", "anchors": ["src/viqa/utils/misc.py:gabor_convolve"]}
{"id": "C111", "title": "MAD does not see brightness changes and inversion", "statement": "Adding a constant to either image or replacing it by its negative leaves the appearance index of MAD unchanged. The appearance index of an image and a brighter, darker or inverted copy is therefore 0 and, since MAD is the weighted product of both indices, MAD is 0 as well, whatever the (finite or infinite) detection index is; it is not a number if the detection index is not.", "quantifier": "all images (square for the value 0), parameters, detection indices and contrast sensitivity filters", "why_tests_cant": "Over all images, constants and filter parameters.", "anchors": ["src/viqa/fr_metrics/mad.py:_low_quality", "src/viqa/fr_metrics/mad.py:most_apparent_distortion", "src/viqa/utils/misc.py:gabor_convolve"]}
{"id": "C112", "title": "Detection index of MAD and references that hide every distortion", "statement": "For square images whose side is a multiple of the stride and exceeds two blocks (default overlap) the detection index is 200 times the root mean square, over the pixels further than one block from the border, of visibility times local mean squared error. Visibility of a block is the logarithm of the error contrast over the larger of reference contrast and e^-5, if the former is larger and the mean filtered lightness is above 1/2, else 0. If no block of the filtered reference has mean lightness above 1/2, MAD is therefore 0 for every modified image; this is so for every uniform reference with a grey value of at most 50 and the default parameters.", "quantifier": "all square image pairs of the given sizes, block sizes divisible by 4, filters, parameters, uniform values in [0,50]", "why_tests_cant": "Quantifies over all modified images; a test with a few noise levels cannot show that no distortion is ever seen.", "anchors": ["src/viqa/fr_metrics/mad.py:_high_quality", "src/viqa/fr_metrics/mad.py:most_apparent_distortion", "src/viqa/fr_metrics/mad.py:_pixel_to_lightness"]}
{"id": "C113", "title": "MAD with data range 1 is always 0", "statement": "The lightness scale of MAD is made for grey values up to 255. With data_range=1 (a documented choice) every pair of square images with grey values in [0,1] whose side is at most 17 times the block size (272 pixels by default) has MAD 0, and so has every cubic volume of that size along each axis.", "quantifier": "all image pairs and volumes with the given sizes and range, all monitors, orientations, weights", "why_tests_cant": "Over all image pairs; needs an energy bound for the filtered image instead of examples.", "anchors": ["src/viqa/fr_metrics/mad.py:_high_quality", "src/viqa/fr_metrics/mad.py:_pixel_to_lightness", "src/viqa/fr_metrics/mad.py:most_apparent_distortion_3d"]}
{"id": "C114", "title": "Exported csv tables can be read back exactly", "statement": "Every table of texts handed to csv.writer (results of batch mode and of several metrics, export_results, statistics of an image) is read back by csv.reader with its default settings as the same rows: commas, quotation marks, line ends, empty texts, empty rows and rows of different lengths are kept, so different tables give different files. Only texts of more than 131072 characters can be written but not read.", "quantifier": "all lists of rows of texts of at most 131072 characters", "why_tests_cant": "Quoting and line ends interact over arbitrary characters; tests look at a few tables of names and numbers.", "anchors": ["src/viqa/multiple.py:BatchMetrics.export_results", "src/viqa/multiple.py:MultipleMetrics.export_results", "src/viqa/utils/export.py:export_results", "src/viqa/utils/loading.py:ImageArray.describe"]}
{"id": "C115", "title": "Batch mode reads the pairs file of write_to_csv.py, unless a name contains a quotation mark", "statement": "_read_pairs applied to the pairs.csv written by write_to_csv.py gives exactly the listed pairs if and only if no listed name contains a quotation mark. Names with commas, apostrophes, blanks or line ends are kept. The dialect detected from the header does not double quotation marks, although the file was written with doubled ones, so the first such name is always read as something else.", "quantifier": "all lists of pairs of names of at most 131072 characters; all results of the script", "why_tests_cant": "An equivalence over all file names; the damaged names depend on the characters after the quotation mark.", "anchors": ["src/scripts/write_to_csv.py:write_to_csv", "src/viqa/multiple.py:_read_pairs"]}
{"id": "C116", "title": "Pair files of other programs", "statement": "A file with commas, tabs or semicolons between the cells (at least two columns, header without quotation marks, apostrophes and other separators, cells without separator, line ends and leading quotation mark) is read cell by cell for each kind of line end. Without quotation marks line ends of different kinds may be mixed and the last line needs none: only the lines count. A cell that opens a quotation which is never closed takes the rest of the file, so that later pairs are lost without an error. If every name after a separator starts with a blank, blanks in front of cells are left out. A file with one column only, or an empty file, raises csv.Error instead of the announced ValueError.", "quantifier": "all such tables, separators and line ends", "why_tests_cant": "Over all tables and names; the detection of the separator depends on every character of the header.", "anchors": ["src/viqa/multiple.py:_read_pairs"]}
{"id": "C117", "title": "Printed scores", "statement": "print_score and MultipleMetrics.print_values print the multiple of 10^-decimals nearest to the score (the even one in the middle): never more than half a unit away, in the order of the scores, different for scores more than one unit apart, unchanged when printed again. The text of print_values has exactly the requested digits, a minus sign exactly for negative scores, denotes the same number as print_score, and covers all results in order. Negative decimals work in print_score and raise ValueError in print_values. print_score puts a fixed name in front, which is not the name of the metric for colour RMSE, PSNR and FSIM. Without a score a RuntimeWarning is documented, but MS-SSIM, VIFp and VSI print the text to the output instead; after export_results of a metric without a score print_score raises TypeError.", "quantifier": "all scores, numbers of decimals, metrics and constructor options", "why_tests_cant": "rounding is a statement about all real numbers; printed output is not inspected by the tests", "anchors": ["src/viqa/multiple.py:613-622", "src/viqa/fr_metrics/msssim.py:286-302", "src/viqa/fr_metrics/fsim.py:285-301", "src/viqa/utils/export.py:53-103"]}
{"id": "C118", "title": "Warnings", "statement": "Loading warns once that data_range will be ignored exactly if it is set without normalize; scoring a pair therefore warns twice, although PSNR gives a larger score for a larger data range for every two different images. A conversion to grey is warned about exactly when an axis is lost. crop_image warns 'already cropped' exactly when the image is returned unchanged, and about the ignored z exactly for a plane that is really cropped; the documented warning about z is missing when the whole plane is requested. 'Already normalized' is always said of 8-bit images with (0, 255), whatever they contain, and never of floating-point images. MAD with two non-zero thresholds always warns that beta_1 and beta_2 are ignored, also if they were not given; a threshold of 0 counts as not given. Every SSIM exponent changed by the cast to int is warned about. The warnings about exponents come in the order alpha, beta, gamma, for floats and texts; the first exponent that cannot be converted ends them.", "quantifier": "all images, inputs, parameters, regions and identity relations python allows", "why_tests_cant": "the conditions couple types, shapes and options; the misleading warnings are raised in passing tests too", "anchors": ["src/viqa/utils/loading.py:694-701", "src/viqa/utils/loading.py:normalize_data", "src/viqa/utils/loading.py:crop_image", "src/viqa/utils/loading.py:_check_imgs", "src/viqa/fr_metrics/mad.py:510-524", "src/viqa/fr_metrics/ssim.py:355-363"]}
{"id": "C119", "title": "Warnings and messages about dim and im_slice", "statement": "A volume is scored as a whole, with one warning, exactly if dim is given and im_slice is None; one slice is scored exactly for dim 0, 1 or 2 and an int; everything else raises ValueError. For planes both arguments are unused, with a warning exactly if one of them is true, so dim=0 and im_slice=0 are ignored without one. Without dim FSIM blames im_slice exactly if it is neither an int nor None, MS-SSIM, VIFp, VSI and GSM also if it is None (which is allowed), and MAD always.", "quantifier": "all shapes, dim and im_slice values, the six slice-wise metrics", "why_tests_cant": "the value space is unbounded; messages are not compared", "anchors": ["src/viqa/fr_metrics/msssim.py:191-283", "src/viqa/fr_metrics/fsim.py:187-281", "src/viqa/fr_metrics/vif.py:166-256", "src/viqa/fr_metrics/vsi.py:185-277", "src/viqa/fr_metrics/mad.py:181-246", "src/viqa/fr_metrics/gsm.py:194-255"]}
{"id": "C120", "title": "A score of 1 means identical images", "statement": "With K1, K2 > 0, data_range not 0 and exponents of at least 1, SSIM is 1 only for identical images, for every border mode, for a uniform window of any size and for a Gaussian window of the automatic size; so SSIM.score (all sides >= 11) and UQI.score (all sides >= 7) with default settings are 1 exactly for identical images. It fails for an exponent below 1 (truncated to 0), for a Gaussian narrower than a given win_size (the border is not looked at) and for K1 = K2 = 0 (an image and its negative score 1).", "quantifier": "all images of any dimension and shape, all settings named", "why_tests_cant": "that no pair of different images scores 1 is a statement about all pairs", "anchors": ["src/viqa/fr_metrics/ssim.py:200-421", "src/viqa/fr_metrics/ssim.py:127-179", "src/viqa/fr_metrics/uqi.py:151-167"]}
{"id": "C121", "title": "Scores do not depend on the unit of the grey values", "statement": "Multiplying both images and the data range by the same number leaves SSIM and UQI unchanged (any non-zero number, any settings without cval, grey and colour), PSNR unchanged (also after adding a common offset) and multiplies RMSE by its absolute value. GSM of float images is unchanged for positive numbers if the constant c is multiplied too; with the default c = 200 it is not. SSIM is not invariant under a common offset.", "quantifier": "all images, factors, offsets and settings", "why_tests_cant": "ranges over all images and all real factors", "anchors": ["src/viqa/fr_metrics/ssim.py:200-421", "src/viqa/fr_metrics/uqi.py:151-167", "src/viqa/fr_metrics/psnr.py:105-129", "src/viqa/fr_metrics/rmse.py:92-112", "src/viqa/fr_metrics/gsm.py:361-441"]}
{"id": "C122", "title": "Scores do not depend on the orientation of the images", "statement": "Mirroring, transposing or rotating both images in the same way (any sequence of flips, axis exchanges and rot90) leaves SSIM and UQI of grey images unchanged, with all settings and including the errors they raise, although the filters run over the axes one after the other. RMSE and PSNR are unchanged by any common rearrangement of the pixels. GSM changes when both images are mirrored.", "quantifier": "all images of any dimension, all sequences of moves, all settings with positive win_size", "why_tests_cant": "unbounded images, dimensions and sequences of moves", "anchors": ["src/viqa/fr_metrics/ssim.py:200-421", "src/viqa/fr_metrics/uqi.py:151-167", "src/viqa/fr_metrics/psnr.py:105-129", "src/viqa/fr_metrics/rmse.py:92-112", "src/viqa/fr_metrics/gsm.py:361-441", "src/viqa/utils/loading.py"]}
{"id": "C123", "title": "Single precision can hide distortions from SSIM", "statement": "The images are converted to single precision, so the local variance, a difference of two rounded means, can come out negative. Its square root is NaN, which nan_to_num turns into contrast = structure = 1: only the luminance is left and the score ignores the distortion. Bright nearly flat 16-bit images with default settings show it: the exact SSIM is below 0.02, the computed one above 0.9. It cannot happen (up to three axes) where the local standard deviation is at least 1/1000 of the largest value, nor for flat images. The score depends on the images only through their single precision values, so different images can score exactly 1.", "quantifier": "all images, settings and windows", "why_tests_cant": "ranges over all images; the bound on the rounding error is over all grey values and windows", "anchors": ["src/viqa/fr_metrics/ssim.py:365-421"]}
{"id": "C124", "title": "Identical and exchanged images in single precision", "statement": "With single precision rounding the SSIM of an image with itself is within 2^-22 of 1 (beta = gamma = 1), exactly 1 for flat images, but not always exactly 1 (an 8-bit image scores 1 - 2^-24 with the uniform window). Exchanging the images does not change a single bit of the score.", "quantifier": "all images and settings", "why_tests_cant": "ranges over all images and all settings", "anchors": ["src/viqa/fr_metrics/ssim.py:365-421"]}
{"id": "C125", "title": "Range of SSIM in single precision", "statement": "With single precision rounding the absolute SSIM of images with up to three axes and values up to B is at most 1 + (1 + (B / (K2 * data_range))^2) / 10^5 (exponents 1), which is 1.012 for default settings and values within the data range. The limit 1 itself is exceeded by 16-bit images with default settings, and a data range that is too small lets the score exceed 9.", "quantifier": "all images with up to three axes, all windows, K1, K2, data ranges", "why_tests_cant": "ranges over all images; the bound is over all rounding errors", "anchors": ["src/viqa/fr_metrics/ssim.py:365-421"]}
{"id": "C126", "title": "Scores of raw and mhd files", "statement": "From the path and the bytes on disk to the score: RMSE of two raw or mhd files of the same type and size is the root of the mean squared difference of their little-endian words (integers, or IEEE 754 numbers), PSNR follows from it, and SSIM and UQI are those of the volumes in file order, so the rotation and the flip of the reader do not matter. A raw file and an mhd file with the same data give the same image. Files of another size raise ValueError, missing files FileNotFoundError. Dimensions with a wrong factorisation of the same product are not noticed by RMSE. Volumes with three slices are taken for colour images and cut off at 255: any two bright 16-bit volumes with three slices have RMSE 0.", "quantifier": "all file systems, paths, names, headers, dimensions, types and file contents", "why_tests_cant": "ranges over all files and all contents", "anchors": ["src/viqa/utils/loading.py:341-392", "src/viqa/utils/loading.py:395-471", "src/viqa/utils/loading.py:474-561", "src/viqa/utils/loading.py:592-612", "src/viqa/utils/loading.py:721-726", "src/viqa/utils/misc.py:32-37", "src/viqa/fr_metrics/rmse.py:92-112", "src/viqa/fr_metrics/psnr.py:105-129"]}
{"id": "C127", "title": "Header fields the mhd reader does not look at", "statement": "The mhd reader uses only ElementDataFile, DimSize and ElementType. Two headers that agree in these are read alike, with any line ends. So the byte order is ignored: 16-bit data stored with the most significant byte first is read with exchanged bytes, whatever BinaryDataByteOrderMSB says. Headers with two dimensions always raise ValueError. ElementDataFile = LOCAL is taken for the name of a file.", "quantifier": "all headers, directories and data", "why_tests_cant": "ranges over all headers and contents", "anchors": ["src/viqa/utils/loading.py:395-471", "src/viqa/utils/loading.py:592-612"]}
{"id": "C128", "title": "CNR and SNR do not depend on the orientation if the centres are moved the right way", "statement": "For greyscale images that are mirrored, transposed or rotated by right angles, CNR and SNR with regions in the image keep their value or error if the centres move along: a ball around voxel c of an axis with n voxels belongs at n - 1 - c, but a cube belongs at n - c, because it is the half-open range from c - radius to c + radius; with n - 1 - c the value changes. With automatic regions of the kinds full and original the value does not depend on the orientation. With automatic balls it does not if one voxel only is furthest inside; with two such voxels, and with automatic cubes always, it can.", "quantifier": "all greyscale images, sequences of flips, axis exchanges and quarter turns, region kinds, centres and radii", "why_tests_cant": "ranges over all images, orientations and centres", "anchors": ["src/viqa/nr_metrics/cnr.py:757-842", "src/viqa/nr_metrics/snr.py:986-1124", "src/viqa/utils/misc.py:452-491", "src/viqa/utils/misc.py:493-585", "src/viqa/utils/misc.py:587-640"]}
{"id": "C129", "title": "A whole batch run, from pairs file and images to results.csv", "statement": "BatchMetrics, calculate and export_results with RMSE and PSNR, applied to the pairs file of write_to_csv.py and raw or mhd files of any types and sizes (same within a pair), write a results.csv that csv.reader reads as one row per pair: number, the two names, and RMSE and PSNR computed from the words in the two files; no other file changes. This results.csv is itself a pairs file for the same pairs, so a second run with it writes the same file. A missing image raises FileNotFoundError and nothing is written; exporting afterwards writes a table of the pairs before it, without any sign of the others. A pairs file without pairs empties the results file and raises KeyError. The pairs file is looked up as given, not relative to file_dir as documented.", "quantifier": "all file systems, directories, lists of pairs (repetitions included), types, sizes and contents of the images", "why_tests_cant": "The guarantee combines csv quoting, dialect detection, path joining, byte decoding, caching between pairs and the scores, over all pair lists and file contents.", "anchors": ["src/viqa/multiple.py:201-213", "src/viqa/multiple.py:250-292", "src/viqa/multiple.py:382-421", "src/viqa/multiple.py:653-711", "src/viqa/utils/loading.py:341-612", "src/viqa/fr_metrics/rmse.py:92-112", "src/viqa/fr_metrics/psnr.py:105-129"]}
{"id": "C130", "title": "Scores of normalised files", "statement": "From raw or mhd files to RMSE and PSNR with normalize=True. With data_range 1 the numbers of each file are stretched to 0..1 by its own extremes, the two files may have different types, RMSE lies in 0..1 and PSNR is -20 log10 of it; a gain and an offset between the scans are not seen (RMSE 0, PSNR infinite). With data_range 255 or 65535 floating point files are stretched and rounded down, gain and offset are not seen either, and the RMSE differs by at most 1 from data_range times the RMSE with data_range 1. For unsigned files the product is reduced to the width of the type: an offset is not seen, a gain is not seen only if the products fit; otherwise a 16-bit scan and its double get an RMSE above 115. 8-bit files with data_range 255 are not normalised at all, so the score is that of the stored numbers.", "quantifier": "all raw and mhd files of any type and size (not three slices) that are not constant, all gains and offsets", "why_tests_cant": "ranges over all file contents and sizes; the wrap only shows for wide ranges of values", "anchors": ["src/viqa/utils/loading.py:341-612", "src/viqa/utils/loading.py:758-766", "src/viqa/utils/loading.py:843-891", "src/viqa/fr_metrics/rmse.py:92-112", "src/viqa/fr_metrics/psnr.py:103-133"]}
{"id": "C131", "title": "RMSE and PSNR in floating point", "statement": "RMSE.score with the rounding of the machine: differences and squares in single precision for 8 and 16-bit integers and half and single precision floats (double precision otherwise), sum in double precision in any order, rounded mean and root, with gradual underflow and overflow. A finite score differs from the exact one by at most 4(u + (D+1)v)E + 2 sqrt(eta) (u unit of the working type, v double precision unit, D longest chain of additions, eta smallest number); in single precision with D < 2^25 by 1e-6 E + 1e-21, also for raw and mhd files. 8-bit images of up to 2^37 voxels: the order of the additions does not matter and the relative error is at most 2^-52. PSNR is off by at most 10 (4u + 4(D+1)v + 3/2 eta/e) decibels for a mean squared error e (if the bracket is at most 1/2): 3e-6 dB in single precision with D < 2^25 and e >= 1e-30, and 2^-49 dB for 8-bit images that differ, whatever the order. A constant difference of at most 4096 gives exactly this number. For integers of half the working precision the score is 0, and PSNR infinite, exactly for identical images. The score is symmetric to the last digit, never NaN and never negative. Wrong expectations: float images that differ by at most 2^-75 get RMSE 0 and PSNR infinite; a difference of 2^64 in single precision makes the score infinite; 16-bit images with a constant difference of 4097 do not get 4097.", "quantifier": "all images and sizes, all orders of additions, all formats", "why_tests_cant": "ranges over all values, all sizes and all summation orders; the deviations appear in special values only", "anchors": ["src/viqa/fr_metrics/rmse.py:92-112", "src/viqa/fr_metrics/psnr.py:105-129"]}
{"id": "C132", "title": "CNR and SNR in floating point", "statement": "The last lines of contrast_to_noise_ratio and signal_to_noise_ratio with the rounding of the machine (double precision for integer and double precision images, single precision for single precision images; sums in any order, also different orders for np.mean and np.std). If squares do not overflow and the deviation does not underflow, with D the longest chain of additions, u the unit of the format and K = mean |x| / deviation (CNR: mean |signal| + mean |background| over the deviation) such that 12 (D+2) u (1+K) <= 1, the score is finite and differs from the exact one by at most 16 (D+2) u (1+K)^2. Unsigned 8 and 16-bit regions of up to 2^20 voxels meet these conditions always: SNR is off by at most (n+2) 2^-49 (1+SNR)^2. The test np.std(...) == 0 is reliable for whole numbers with a total of at most 2^53: it succeeds exactly for constant regions; a constant region of value k 2^e is recognised when n |k| fits into the precision. Wrong expectation: a constant float region has SNR 0. Three voxels of the value M 2^e with M = 2 mod 8 of full precision above two thirds of the largest get deviation 2^e and SNR M + 1 in every order (0.1 in double precision: 7205759403792795), and CNR against them is k - M - 1 instead of 0, even for a signal of the same value.", "quantifier": "all regions, all values, all orders of additions, both formats", "why_tests_cant": "ranges over all sizes, values and summation orders; the failing constants are one in many and look harmless", "anchors": ["src/viqa/nr_metrics/cnr.py:836-842", "src/viqa/nr_metrics/snr.py:1095-1124"]}
{"id": "C133", "title": "The notebooks the README recommends", "statement": "notebooks/Image_Comparison.ipynb and notebooks/Image_Comparison_batch.ipynb from the first to the last cell, for every setting of the calc_... variables, all files, keywords and outcomes of library calls. Wrong expectation: the notebooks run as delivered. With calc_snr (on as delivered) the first one never writes anything: it always ends in an error. The second one always ends in an error with calc_cnr or calc_snr (both on), before any metric is calculated: the pictures of the regions are asked for without a region type (TypeError for regions that fit, ValueError if only SNR is chosen). Images of different shapes: the first notebook resizes them to a plain array, whose calculate_statistics() is missing: AttributeError. With SNR off, a run that succeeds reports exactly the chosen metrics in the order of the cells, all column names different, each value being what the metric object just made with data_range, normalize=False gives for the two images with the keywords of the notebook. Centres chosen in the user interface of CNR have no effect whatsoever on figure, table and metadata, as the keywords replace them. The report leaves the figure, the table with one line of scores and the metadata file under the project name, in this order; if the slice is not in the volume, IndexError and no file, although all scores were calculated. The batch notebook leaves the table with one line per pair, columns number, file names and the chosen metrics, and one figure per pair; without pairs an empty table is left behind, then KeyError. For the same files both notebooks report equal scores for all metrics but RMSE, whose object gets no data range in the batch notebook.", "quantifier": "all settings of the notebooks' variables, all images, keywords, pairs, widget outcomes", "why_tests_cant": "notebooks are not part of the test suite; ranges over 4096 settings, all files and all widget histories", "anchors": ["notebooks/Image_Comparison.ipynb:160-807", "notebooks/Image_Comparison_batch.ipynb:150-912", "README.md:228", "src/viqa/multiple.py:297-377"]}
{"id": "C134", "title": "Exponents of SSIM", "statement": "The notebooks explain the keywords alpha, beta, gamma with SSIM = luminance^alpha x contrast^beta x structure^gamma and say the score is lower if one of them is set to a higher value. For every accepted setting with a border mode that only reads image pixels the score is indeed the mean over the windows of l^a c^b s^g for whole exponents, with terms |l| <= 1, 0 <= c <= 1, |s| <= 1 that do not depend on the exponents. For images without negative values the sentence is right if both images rise and fall together (where one is brighter the other is not darker), or if int(gamma) is even, in particular 0: raising any of the three never raises the score; also for SSIM.score with its defaults. Wrong expectation: it holds for all images. For a 3x3 image with one bright pixel and its negative, raising alpha from 1 to 2 raises the score and raising gamma from 1 to 2 turns a negative score into a positive one; with K2 = 0 and images that are opposed everywhere a higher gamma never lowers the score if int(gamma) is odd. Exponents between 0 and 1 count as 0: with all three below 1 any two images score exactly 1.", "quantifier": "all images of equal shape, all accepted settings, all non-negative exponents", "why_tests_cant": "a monotonicity statement over all images and real exponents; the counterexamples need negative structure terms, which test images similar to the reference never have", "anchors": ["notebooks/Image_Comparison.ipynb:445", "src/viqa/fr_metrics/ssim.py:355-421"]}
{"id": "C135", "title": "The score ranges documented in the README table", "statement": "For grey values in [0, data_range] RMSE lies in [0, data_range] and PSNR in [0, infinity]; RMSE = data_range and PSNR = 0 exactly when every pixel is black in one image and white in the other. Different integer images of n pixels have PSNR at most 20 log10(data_range) + 10 log10 n, attained if they differ by 1 in one pixel; for real grey values finite PSNR is unbounded. MAD and its two indices are never negative for any images, filters and parameters (they may be infinite or not a number). CNR has the sign of the difference of the mean grey values of the regions, so the documented lower bound 0 is false. SNR is not negative for images without negative grey values, but negative for others and for green colour images.", "quantifier": "all images, parameters, regions", "why_tests_cant": "Bounds, equality conditions and unboundedness quantify over all images and all external filters; tests see single scores.", "anchors": ["README.md:77-89", "src/viqa/fr_metrics/psnr.py:105-129", "src/viqa/fr_metrics/rmse.py:92-112", "src/viqa/fr_metrics/mad.py:341-534", "src/viqa/nr_metrics/cnr.py:837-840", "src/viqa/nr_metrics/snr.py:1042-1099"]}
{"id": "C136", "title": "Texts of the exceptions", "statement": "Loading, comparing, constructing and scoring raise the exception classes of the other models, with these texts: an array with n axes, n neither 2 nor 3, gives 'Number of dimensions of input image should be 2 or 3, got n.' whatever the other arguments; two loaded images give 'Image types do not match', 'Image shapes do not match' or 'Images are not chromatic.' in this order of checks, and no other text; a list against an image gives a text that contains {type(img_r_loaded)} literally, because the f of the f-string is missing; two lists of one image are always refused and the shapes are blamed even if they agree; 'Number of images do not match' and 'Image format not supported.' never appear. 'Images must be 2D or 3D.' of the six slice-wise score methods appears exactly for planes with three columns, not for other numbers of axes. SSIM, MAD, CNR, SNR and the constructors report the first fault in a fixed order. Several texts say something else than the check: K1 = 0 is accepted although it 'must be positive', a block as large as the image although it 'must be smaller', and the radius 0 is refused because it 'has to be an integer'.", "quantifier": "all inputs (arrays, lists, paths with any file reader), element types, shapes, ranges, regions of interest, keyword values, centres, radii, metrics", "why_tests_cant": "The tests look for one text per check with one input; which text wins for inputs with several faults, and that a branch is never or only surprisingly reached, are statements about all inputs.", "anchors": ["src/viqa/utils/loading.py:688-755", "src/viqa/utils/loading.py:842-889", "src/viqa/utils/loading.py:928-955", "src/viqa/utils/loading.py:958-1011", "src/viqa/_metrics.py:37-38", "src/viqa/fr_metrics/ssim.py:305-341", "src/viqa/fr_metrics/mad.py:493-506", "src/viqa/nr_metrics/cnr.py:796-835", "src/viqa/nr_metrics/snr.py:1019-1040"]}
{"id": "C137", "title": "SNR objects after scoring", "statement": "A successful SNR.score of an image that is not (H, W, 3) stores a pair of the value and a dictionary with the type of the region ('original' for 'full' without auto_center), the signal array the value belongs to and, for cubes and spheres, centre and radius. Such an object cannot be printed (TypeError for every number of decimals), is unequal to every python number and has no order with it, and its comparison with a numpy number, as other metrics store it, has no truth value. Two objects of different calls are never equal if the signal has two pixels or more: either a value or a parameter differs, or the comparison raises ValueError, in particular for the same image scored twice with the same arguments; an object is equal to itself even if the value is NaN. Signals of one pixel can be compared. Different finite values are ordered as numbers, equal ones with different parameters raise TypeError. The three values of a colour image are compared in order. A linear combination with an SNR object raises TypeError.", "quantifier": "all images, centres, radii, region types, iterations and thresholds; all values, decimals, orders and weights", "why_tests_cant": "The tests of SNR compare the score with 0, which is never equal; that no value, no other object and no order makes these operations work is a statement about all of them.", "anchors": ["src/viqa/nr_metrics/snr.py:110-148", "src/viqa/nr_metrics/snr.py:163-166", "src/viqa/nr_metrics/snr.py:1096-1124", "src/viqa/_metrics.py:68-103", "src/viqa/fusion.py:31"]}
{"id": "C138", "title": "MAD keeps its settings in module variables; results do not depend on earlier calls, but concurrent or direct calls do", "statement": "most_apparent_distortion stores the sides of the image, the block size and the stride in module variables. Its result never depends on what earlier calls, failed or not, left there. As long as every block size is refused, block size and stride stay 0. A call always stores the sides, the block size only if it is valid, the stride only if the overlap is valid too. The two indices called directly use what the last call left: before any call every image fails, after a call on the same size they use its block size, on another size the detection index is a ValueError. If another thread sets the variables in between, the later parts use its block size, and with other sizes no value results. The argument weights is divided by its sum in place: an array of floats of the caller is changed (once), a list is not, an array of integers is a TypeError; only the ratios of the weights matter.", "quantifier": "for all images, options, stored states, sequences of calls, interleavings of two calls and all weights", "why_tests_cant": "Tests run calls one after the other with one size; the effect of arbitrary histories, stale variables and interleavings is a statement over all states.", "anchors": ["src/viqa/fr_metrics/mad.py:57", "src/viqa/fr_metrics/mad.py:497", "src/viqa/fr_metrics/mad.py:743"]}
{"id": "C139", "title": "What the assertions of the project's test suite amount to for all images", "statement": "The tests that expect an exception with a text are decided for every image: those for data_range=None, for centres and radii, for an invalid dim, for FSIM without dim and the warning for planes always pass; those for images with four axes (MAD, FSIM, CNR, SNR) and for MAD without dim always fail, since another text is raised. CNR of a constant image or of equal regions is 0 and printed as 'CNR: 0.0', so the test that expects 'CNR: 0' fails; the comparisons of SNR scores with numbers are constant. PSNR of an image with itself is infinite, of zeros and ones 20 log10 of the data range (printed 48.13 for 255); RMSE of images in [0, 1] is in [0, 1], the length of its printed line depends on the image; SSIM of zeros and ones is c / (1 + c); MAD of any 128 x 128 images in [0, 1] with data range 1 is 0.", "quantifier": "for all images of the shapes used in the tests, all centres, radii, axes, data ranges and all scores printed", "why_tests_cant": "The tests themselves are single samples, often with random images; whether an assertion holds or fails for every image is a universal statement.", "anchors": ["tests/test_mad_pytest.py:148", "tests/test_cnr_pytest.py:102", "tests/test_snr_pytest.py:139", "tests/test_psnr_pytest.py:118", "tests/test_rmse_pytest.py:110"]}
{"id": "C140", "title": "Stronger distortions get worse scores: always for RMSE and PSNR, for SSIM and UQI with changes of brightness and contrast but not in general", "statement": "If the difference between the images is multiplied by t, RMSE is multiplied by |t| and PSNR falls by 20 log10 |t|, so both rank the strengths of any one distortion correctly. Adding a larger constant to a nonnegative image always gives a strictly lower SSIM (and UQI), whatever window, constants and border mode (except 'constant') are set; multiplying it by a factor further from 1 (on one side) never gives a higher one. For other distortions the order can be wrong: there are images in [4, 116] for which a change applied seven times scores better than applied four times.", "quantifier": "for all images of all shapes, all strengths, windows, constants and data ranges", "why_tests_cant": "The order of scores is a statement over all images and pairs of strengths; tests compare a few values.", "anchors": ["src/viqa/fr_metrics/ssim.py:343", "src/viqa/fr_metrics/ssim.py:393", "src/viqa/fr_metrics/rmse.py:92", "src/viqa/fr_metrics/psnr.py:105", "src/viqa/fr_metrics/uqi.py:128"]}
{"id": "C141", "title": "A larger data_range never lowers SSIM or UQI of nonnegative images, and a far too large one makes every score almost 1", "statement": "For nonnegative images and constants with 3/2 K1^2 <= K2^2 (as by default) SSIM and UQI never fall if data_range is raised. If no pixels differ by more than D, the score is at least 1 - (D / (K1 data_range))^2; black against a grey of D has 1 - D^2 / (D^2 + (K1 data_range)^2), so the bound is sharp for small D. Hence every pair of images scores within any eps of 1 if the data range is large enough, and any two 8-bit images scored with 65535 get more than 0.84. With the two constants exchanged a larger data range can lower the score; and which of two images is better can depend on data_range.", "quantifier": "for all images of all shapes, windows, constants and data ranges", "why_tests_cant": "Monotonicity and bounds in data_range over all images are universal statements; tests check single values.", "anchors": ["src/viqa/fr_metrics/ssim.py:393", "src/viqa/fr_metrics/ssim.py:394", "src/viqa/fr_metrics/ssim.py:306", "src/viqa/fr_metrics/uqi.py:157"]}
{"id": "C142", "title": "How RMSE and PSNR of a volume follow from those of its slices", "statement": "Along any axis the square of the RMSE of a volume is the mean of the squares of the RMSEs of its slices. So averaging the slices' RMSEs never gives more than the volume's RMSE, which lies between the smallest and the largest of them. If no slice is equal to that of the reference, the PSNR of the volume is at most the mean of the PSNRs of its slices and lies between the smallest and the largest. The PSNR of the volume is infinite exactly if that of every slice is.", "quantifier": "for all volumes of all sizes, axes and data ranges", "why_tests_cant": "The inequality between the volume's score and the mean of the slices' scores must hold for all volumes; a test checks single ones.", "anchors": ["src/viqa/fr_metrics/rmse.py:110", "src/viqa/fr_metrics/psnr.py:125"]}
{"id": "C143", "title": "A volume of equal slices has the score of the slice, except with uniform windows", "statement": "If two images are repeated n times along a new first axis, RMSE and PSNR stay as they are. SSIM with gaussian weights and no win_size also stays as it is (the same errors, too), for all constants, exponents and border modes other than constant ones, if n is not below the window (11 with the defaults). With uniform windows (and so with UQI) this is not so: the sample variance divides by one less than the number of the pixels in the window, so that volumes and images are weighted differently.", "quantifier": "for all images of all shapes, numbers of copies, constants, exponents, widths and data ranges", "why_tests_cant": "Equality of the score of the stack and of the image is a statement on all images and all settings; tests compare single pairs.", "anchors": ["src/viqa/fr_metrics/ssim.py:326", "src/viqa/fr_metrics/ssim.py:349", "src/viqa/fr_metrics/ssim.py:352", "src/viqa/fr_metrics/rmse.py:110", "src/viqa/fr_metrics/psnr.py:125"]}
{"id": "C144", "title": "Smallest and largest scores of images with integer grey values", "statement": "Two different images of n pixels with integer grey values have an RMSE of at least 1/sqrt(n), reached exactly if one pixel differs by one. With grey values from 0 to data_range D the PSNR of different images lies between 0 (exactly if every pixel differs by D) and 20 log10(D sqrt(n)) (exactly if one pixel differs by one). The RMSE is printed as 0 with d decimals exactly if 4 * 100^d * (sum of squared differences) <= n; so every image of at least 40000 pixels has a different one whose RMSE is printed as 0.00. With grey values from a > 0 to b the SNR of a region with noise is at least 2 sqrt(a b)/(b - a); with integer grey values from 0 to D the SNR of a region of n pixels with noise is positive and at most (n D - 1)/sqrt(n - 1), and the CNR is within the same bound for a background of n pixels.", "quantifier": "for all images of all shapes, all grey values, regions, radii, centres and decimals", "why_tests_cant": "Bounds on all pairs of images and all regions; tests compute scores of single images.", "anchors": ["src/viqa/fr_metrics/rmse.py:110", "src/viqa/fr_metrics/psnr.py:125", "src/viqa/nr_metrics/snr.py:1096", "src/viqa/nr_metrics/cnr.py:837", "src/viqa/fr_metrics/rmse.py:128"]}
{"id": "C145", "title": "The version found by the build and by the documentation, and the generated requirement files", "statement": "The script that gives meson the version and the configuration of the documentation both take the first line that starts with __version__, but read it differently. They agree on every version in double quotation marks with blanks around the equality sign and nothing but blanks behind. The last line of the file needs no line end. A comment in the line becomes part of the version of the package only; single quotation marks make the documentation fail with IndexError; without blanks around the equality sign the build fails with IndexError; without such a line the build fails with StopIteration and the documentation shows vUndefined. generate_requirements.py writes for every optional group a file of two header lines and one line per requirement, in order, different lists giving different files; the dependencies are in default.txt unless a group has the name default, whose requirements replace them.", "quantifier": "for all texts of __init__.py around the line, all versions, comments, lists of requirements and groups", "why_tests_cant": "Tests build one version; which lines are read correctly is a statement over all texts.", "anchors": ["src/viqa/utils/_build/version.py:23", "docs/source/conf.py:16", "tools/generate_requirements.py:35", "meson.build:4"]}
{"id": "C146", "title": "GSM and changes of contrast: monotone only if some gradient value is positive, and different for rising and falling grey values", "statement": "For floating point images whose strongest gradient image has a positive value, with c >= 0 and 0 <= p <= 1/2, GSM of an image r and s r falls (or stays) when s is lowered below 1 and when s is raised above 1, and is at most 1. Pixels with negative gradient get a higher value than pixels with positive gradient for the same loss of contrast, so inverting both images changes the score with the default parameters. Without a positive gradient value lowering the contrast can raise the score above that of the unchanged image.", "quantifier": "for all 2D and 3D images, gains, data ranges, constants c and factors p", "why_tests_cant": "Monotonicity over all images and gains; tests compare single scores.", "anchors": ["src/viqa/fr_metrics/gsm.py:426", "src/viqa/fr_metrics/gsm.py:431", "src/viqa/fr_metrics/gsm.py:435"]}
{"id": "C147", "title": "The appearance index of MAD is proportional to the change of contrast, and jumps at a flat image", "statement": "For a square image r and the copy u r + w with u other than 0, the appearance index of MAD is | |u| - 1 | times a number that depends on r and the parameters only (the root mean square of the weighted deviations of the filtered blocks of r): skewness and kurtosis of the blocks do not change and the offset is not seen. Hence of two copies the one whose contrast is farther from that of r never scores better, and the scores stand in the proportion of the changes. A flat image is compared with deviation, skewness and kurtosis of the blocks of r, so with weights that are not negative it never scores better than any copy with up to twice the contrast, however weak.", "quantifier": "for all square images, gains, offsets, block sizes, strides, orientations and weights with a sum other than 0", "why_tests_cant": "Proportionality and order over all images and gains; tests compare single scores.", "anchors": ["src/viqa/fr_metrics/mad.py:705", "src/viqa/fr_metrics/mad.py:794", "src/viqa/utils/misc.py:210", "src/viqa/fr_metrics/stat_utils/statisticsmodule.c:172"]}
{"id": "C148", "title": "RMSE is made of brightness, contrast and structure; CNR is SNR of the background times the relative contrast", "statement": "The square of RMSE is the sum of the squared difference of the means, the squared difference of the standard deviations and twice the nonnegative difference of the product of the standard deviations and the covariance. Hence RMSE is at least the difference of the means and that of the standard deviations and at most the difference of the means plus both standard deviations, and PSNR of images whose means or deviations differ by d is at most 20 log10(data_range / d). Of all brightness changes of the second image exactly the one that makes the means equal gives the least RMSE. RMSE against an image of one grey value k is the root of the variance plus the squared distance of k to the mean; with k the mean it is the deviation SNR and CNR divide by. For one image and region size CNR equals SNR at the background centre times (signal mean / background mean - 1), also for regions without noise.", "quantifier": "for all nonempty images of equal length, all shifts, grey values, data ranges, and for all images, region types, centres and radii", "why_tests_cant": "Identities and inequalities over all images; tests compare single scores.", "anchors": ["src/viqa/fr_metrics/rmse.py:110", "src/viqa/fr_metrics/psnr.py:122", "src/viqa/nr_metrics/cnr.py:840", "src/viqa/nr_metrics/snr.py:1099"]}
{"id": "C149", "title": "What the MAD and GSM score of a volume says about its slices", "statement": "The score of a volume along dim is the mean of the scores im_slice gives for its slices. It keeps every bound of the slices' scores and meets a bound only if every slice does. A defect of one slice changes the score of a volume of n slices by an n-th of the change of the slice's score. One slice that is not a number makes the score of the volume not a number, one infinite slice (without others of opposite sign) makes it infinite. The volume raises exactly if some slice does, with the error of the first such slice. A volume without slices gives not a number.", "quantifier": "for all volumes, numbers of slices, dims 0 to 2 and scores of slices, whatever the 2D metric is", "why_tests_cant": "Statements over all volumes and numbers of slices; tests score single volumes.", "anchors": ["src/viqa/fr_metrics/mad.py:312", "src/viqa/fr_metrics/mad.py:338", "src/viqa/fr_metrics/gsm.py:330"]}
{"id": "C150", "title": "GSM sees neither pixels without gradient nor the direction of edges", "statement": "Pixels where the gradient image with the larger mean is 0 do not count: two pairs of images with the same such gradient image and the same maximum of the gradients that agree wherever it is not 0 get the same score, so a distortion of flat parts of the reference is not seen while the gradients of the distorted image have no larger mean and maximum. Only the strongest gradient image of each image is compared, whichever kernel it comes from: if they coincide, have a positive value, c >= 0, p >= 0 and the grey values differ by at most the data range, the score is between 1 - p and 1, and 1 exactly if p = 0 or the grey values agree wherever there is a gradient. A vertical edge of height u compared with a horizontal one gets 1 - p/2 (u/data_range)^2, 0.95 for full contrast with the default parameters.", "quantifier": "for all 2D and 3D images, data ranges, constants c and factors p; for all heights of the edge", "why_tests_cant": "Equality of the scores over all images that differ in flat parts only, and bounds over all images with equal strongest gradients; tests compare single pairs.", "anchors": ["src/viqa/fr_metrics/gsm.py:426", "src/viqa/fr_metrics/gsm.py:432", "src/viqa/fr_metrics/gsm.py:436", "src/viqa/fr_metrics/gsm.py:440"]}
{"id": "C151", "title": "Ranking images with fused scores: right exactly if the signs of the weights match the metrics", "statement": "If every score of an image is at least that of another one where the weight is positive and at most where it is negative, so is the fused score, and the fused scores are equal only if all scores with weights other than 0 are. Higher scores in every metric give a higher fused score for all scores exactly if no weight is negative. PSNR with a positive weight and RMSE with a negative weight (or 0) rank like RMSE alone. With both weights positive and 40 log10(2) times the weight of PSNR below the weight of RMSE times the data range there are images inside the data range where the one with the lower PSNR and the higher RMSE gets the higher fused score; equal weights and data range 255 are an instance.", "quantifier": "for all lists of metrics, finite scores and weights; for all images of equal size, data ranges and weights of PSNR and RMSE", "why_tests_cant": "Monotonicity over all scores and weights and an exact condition on the weights; tests fuse single lists of scores.", "anchors": ["src/viqa/fusion.py:31", "src/viqa/fr_metrics/rmse.py:110", "src/viqa/fr_metrics/psnr.py:122"]}
{"id": "C152", "title": "RMSE and PSNR of averaged images", "statement": "For images a and b compared with r, the square of RMSE of t a + (1-t) b is t RMSE(r,a)^2 + (1-t) RMSE(r,b)^2 - t (1-t) RMSE(a,b)^2. For 0 <= t <= 1 RMSE is at most the same mixture of the scores and at most the larger one, below both if they are equal and the images differ, and PSNR is not below both scores. The average of a and b is better than a exactly if RMSE(r,b)^2 - RMSE(r,a)^2 < RMSE(a,b)^2 / 2, and equals r exactly if RMSE(a,b)^2 is twice the sum of the squares. For any number of images the square of RMSE of their average is the mean of the squares less the mean square of their distances from the average, at most the square of the worst; with errors orthogonal to each other, n images of RMSE e average to RMSE e / sqrt n.", "quantifier": "for all images of equal size, all mixtures and any number of images", "why_tests_cant": "Identities and inequalities over all images and numbers of images; tests compute single scores.", "anchors": ["src/viqa/fr_metrics/rmse.py:110", "src/viqa/fr_metrics/psnr.py:122", "src/viqa/fr_metrics/psnr.py:125"]}
{"id": "C153", "title": "RMSE and PSNR along a chain of processing steps", "statement": "RMSE between the first and the last image of a chain is at most the sum of RMSE over the steps, and no step exceeds it and the sum of the other steps. If every one of n steps has a PSNR of at least q, the last image has at least q - 20 log10(n). For every n and every error per step there is a chain that reaches both bounds.", "quantifier": "for all chains of images of equal size, of any length, and all data ranges", "why_tests_cant": "Bounds over all images and lengths of chains; tests compare single pairs.", "anchors": ["src/viqa/fr_metrics/rmse.py:110", "src/viqa/fr_metrics/psnr.py:122", "src/viqa/fr_metrics/psnr.py:125"]}
{"id": "C154", "title": "SNR and CNR of averaged images: never below the worse image unless the noise cancels, which gives 0", "statement": "If two images of equal shape have an SNR of at least q > 0 in a region, so has every mixture t a + (1-t) b with 0 <= t <= 1, unless the mixture has no noise in the region, which gives the score 0; the same holds of CNR and the background region. Averaging two images with uncorrelated noise of the same strength around the same mean multiplies SNR by sqrt 2. Two images of SNR 2 with opposite noise average to an image with SNR 0.", "quantifier": "for all greyscale images, regions, mixtures and bounds q", "why_tests_cant": "Inequalities over all images and regions; tests compute single scores.", "anchors": ["src/viqa/nr_metrics/snr.py:1096", "src/viqa/nr_metrics/snr.py:1099", "src/viqa/nr_metrics/cnr.py:837", "src/viqa/nr_metrics/cnr.py:840"]}
