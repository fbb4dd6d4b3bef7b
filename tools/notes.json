{
 "C04": "Finding: both theorems are counterexamples to order-independence of the chunked reader.",
 "C05": "C05_remote_no_ranges_refuted records that a mask array without rows makes the remote reader raise.",
 "C09": "Finding: counterexample on the closed boundary.",
 "C12": "Finding: two counterexamples to C11 and the general statement that in boolean form nothing is ever added.",
 "C13": "ok_op restricts index operations to indices inside the file and property values to one value per particle; nothing else is assumed about the history.",
 "C16": "C16_read_indices composes the mask with the reader.",
 "C17": "C17_sorted_partition_refuted is a finding: the counts are wrong for sorted cells with a duplicated offset.",
 "C18": "Finding: counterexample; C18_empty_mask_when_tiled gives the positive side.",
 "C20": "C20_misaligned_fields_refuted is a finding (silent misalignment between differently stored fields); C20_remote_empty_selection_refuted: remote datasets cannot be read with an empty spatial selection.",
 "C22": "C22_subset_of_subset_refuted and C22_empty_dataset_fails are findings. Links, attributes and datasets of shape (n,1) or more than two axes are not modelled; which datasets are visited is not part of this model.",
 "C23": "Regions and cell extents as in C08.",
 "C25": "Exact real arithmetic; covers the in-place and the copying methods and to(comoving=...). Uses the standard library's axioms of the real numbers (listed by Print Assumptions).",
 "C26": "Theorems for nested expressions, comparisons, rejections, the error of sums accepted within tolerance, and a concrete accepted sum of unlike exponents (a**4 + a**5 at a = 0.01). Units are left to unyt. Uses the standard library's axioms of the real numbers (listed by Print Assumptions).",
 "C27": "Finding: lines 950-961 convert the operands that are already physical. Uses the standard library's axioms of the real numbers (listed by Print Assumptions).",
 "C28": "Heap model with shared buffers; the provenance relation covers indirect derivation. Re-wrapping with another valid_transform is excluded here and is C51. Uses the standard library's axioms of the real numbers (listed by Print Assumptions).",
 "C29": "Uses the standard library's axioms of the real numbers (listed by Print Assumptions).",
 "C30": "Symmetry turned out to be false (np.isclose is relative to its second argument). Uses the standard library's axioms of the real numbers (listed by Print Assumptions).",
 "C31": "Theorems are about reachable states of a model of the writer with shared array memory; op_shaped only says that an array has as many numbers as its shape.",
 "C32": "C32_duplicates_rejected, C32_distinct_accepted and C32_given_ids_written give the three cases.",
 "C33": "Finding: C33_zero_exponent_refuted. Unit sizes are real numbers; exact_units says that the reader's unit rounding (C55) leaves the system unchanged; no_mutation and one_system exclude the failures of C52.",
 "C34": "ASCII names. C34_collision_refuted is a finding.",
 "C35": "Remote files not modelled; the accesses of each constructor are an arbitrary list (plan), each guarded against KeyError or not. Findings: the four _refuted theorems.",
 "C36": "Threads take slices of the particle list as in the source, in any order of completion; for the GPU the threads are one for each particle and copy in any order. All images in exact arithmetic. The limited-z parallel volume is refuted (shape mismatch, or a single layer repeated).",
 "C37": "Completeness of the copies for points of the image and for slice positions inside the box; no duplicates; counterexamples for kernels wider than the box and for scatter_limited_z with a region larger than the box.",
 "C38": "Pixel equals the sum over all copies up to any N that covers the image of the Wendland kernel at the pixel centre, or of the mass over the pixel area for kernels narrower than a pixel. Real arithmetic.",
 "C39": "Total and single pixels of the histogram backend, for any box; full box gives the total mass.",
 "C40": "Deposited mass of an interior particle as a formula, the exact condition for conservation, and a particle for which more than its mass is deposited.",
 "C41": "Exact pixel and voxel sums with the upper row left out, and a particle whose slice and volume images are not symmetric under reflection.",
 "C44": "Exact arithmetic; floating-point rounding of x % box (which can give the box itself) is outside the model.",
 "C45": "Reals; np.linalg.inv is the exact inverse. A zero vector (NaN in the source) is excluded. C45_aligned_vector_refuted: a vector along the axis is turned round by a reflection.",
 "C46": "KDTree is modelled by what it computes (sorted periodic distances padded with infinity; points outside the box refused).",
 "C47": "Reals. Refutations: too few second values read out of bounds; a list of vertical values raises TypeError (np.ndarray instead of np.array).",
 "C49": "Finding: ret_comp takes the (hasattr, value) pair. Uses the standard library's axioms of the real numbers (listed by Print Assumptions).",
 "C50": "Finding. Uses the standard library's axioms of the real numbers (listed by Print Assumptions).",
 "C51": "Finding. Uses the standard library's axioms of the real numbers (listed by Print Assumptions).",
 "C52": "C52_second_writer_refuted and C52_converted_later_refuted are findings.",
 "C53": "C53_physical_box_refuted is a finding.",
 "C54": "C54_empty_type_fails is a finding (file truncated before the IndexError).",
 "C55": "The decade of a number is a parameter-free real function; decimal printing is modelled as exact rounding to five figures.",
 "C57": "Findings: C57_columns_refuted, C57_collision_refuted.",
 "C58": "Findings: C58_deeper_paths_refuted, C58_nice_name_refuted.",
 "C59": "KDTree modelled by what it computes; ties may resolve to any of the closest particles.",
 "C60": "C60_bower_refuted shows red placed at horizontal 1 and blue at vertical 1 come out exchanged.",
 "C61": "C61_physical_positions_refuted: positions converted to physical are folded with the comoving box length.",
 "C42": "C42_empty_range_refuted: a range of zero length selects every particle. C42_backwards: a range given backwards selects the particles outside of it.",
 "C43": "C43_not_square_refuted: a two by one region gives twice the surface density. C43_no_frame: fields without a comoving flag are not normalised at all. C43_stored: periodic pictures wrap the dataset's coordinates in place.",
 "C62": "slice_scatter backend; the nearest neighbour backend is C59.",
 "C63": "C63_tiny_not_cubic_refuted: sides below 1e-8 (in the unit of the coordinates) are never refused.",
 "C64": "numpy's functions are parameters with a scaling law, and explicit for fourteen of them.",
 "C65": "Counterexamples are stated with the exact factor.",
 "C66": "Arrays are flat; shapes are left to the value function.",
 "C67": "A way of writing is any function commuting with positive scaling.",
 "C68": "average: numpy >= 2.4.1 branch.",
 "C69": "Edges are taken to increase; range= is not modelled.",
 "C48": "Hypotheses as in C03: ranges inside the dataset with starts and ends in order. The part about unneeded chunks excludes empty ranges; the refuted theorem shows why.",
 "C70": "Exact arithmetic; fftn is the discrete Fourier transform; units and labels are those of the box.",
 "C71": "Grids of both fields have the same box; the total masses are not zero.",
 "C72": "Foldings of a dictionary are distinct. np.geomspace is taken for positive ends.",
 "C73": "Trees are finite: no cyclic links. Datasets have one or two axes. Within a phase all objects are prepared before the first is made.",
 "C74": "Findings; the first four theorems are general, the refutations are concrete files.",
 "C75": "Text is bytes; str.lower and \\s of ASCII. Units and numbers are parsed by arbitrary functions.",
 "C76": "Numbers are parsed by arbitrary functions.",
 "C77": "Units by dimension; dates and the conversion of the cosmology by arbitrary functions; ASCII text.",
 "C78": "Headers whose counts are no array are refused here with one error (the code fails later).",
 "C79": "The regular expression is modelled by its greedy search and proved equal to the longest splitting.",
 "C80": "Attributes that are no numbers are refused with one error.",
 "C81": "Reals for the temperature; a negative Omega_r gives NaN in numpy and 0 in the model. w0waCDM itself is not modelled.",
 "C82": "Texts as masses or degeneracies are refused at once in the model. Refutations: C82_lost_refuted, C82_negative_refuted, C82_fractions_refuted, C82_fractional_refuted, C82_default_ur_refuted.",
 "C83": "Exact arithmetic: the single precision kernel is not told apart from the double precision one.",
 "C84": "C84_radii_refuted: one radius for projections and volumes.",
 "C85": "matplotlib's conversions are arguments; images have four channels.",
 "C86": "The unit of a list is an argument (unyt finds it); lists of arrays are treated with one common factor.",
 "C87": "Units are any type with dimension and size; equivalences are left out.",
 "C88": "Python's int of a text is an argument; numbers are rational, text is ASCII.",
 "C89": "str of dates, cosmologies and other values, textwrap.wrap and the reading of units are arguments; the report is stated for texts and flags of the types that SWIFT writes.",
 "C90": "Names asked for are not attributes the object has anyway; group names do not end in _size of another one; all tables have one row per cell.",
 "C91": "Exact arithmetic. Coordinates are in the periodic box and kernels fit in it, as for C38.",
 "C92": "Exact arithmetic. matplotlib's Normalize is modelled as documented, colour maps are arbitrary functions; figures are lists of curves.",
 "C93": "Exact arithmetic; what numpy computes from the numbers is a parameter, with explicit functions where values matter. Units are unyt's and not modelled. C93_labels is for at most two arguments (all of numpy's ufuncs but clip, which C93_never covers).",
 "C94": "Exact arithmetic; units and numpy's functions are parameters, see C64.",
 "C95": "unyt's and numpy's own methods are arbitrary functions returning objects; the labels of ufuncs are C93; numpy's dispatch protocol (NEP 18) is modelled as documented.",
 "C96": "Expressions are powers a**e with a real exponent; exact arithmetic; sympy's and Python's texts of expressions and numbers are parameters without blanks (commas).",
 "C97": "Arrays are shapes with a real number at each index; exact arithmetic; numpy's apply_over_axes, sum and cumsum are modelled from their documented code.",
 "C98": "numpy's functions are parameters that scale part by part; concrete ones (least squares with one unknown, diagonal matrices, evenly spaced points) are shown to do so. Exact arithmetic; formats of savetxt are not modelled.",
 "C99": "The rebuilding of objects by copy and pickle (a new object asked for __setstate__ before it has attributes) is modelled after the Python library. Attributes of the class other than the two properties are not modelled.",
 "C100": "Lengths are in one unit (no conversion between units of length). The spatial theorem is about values that are rational multiples of one positive number, as MaskModel is over the rationals; the property theorem is over the reals. lower -= boxsize is modelled as a subtraction.",
 "C101": "A program does not write to arrays it has taken from the mask. The cell mask is a value: _update_range_masks and the datasets do not hold it.",
 "C102": "Numbers are real numbers. For slices the smoothing lengths are positive. The front-end theorems take the mask argument as None; regions of volumes are cubes.",
 "C103": "Numbers are real numbers, without units: a group is a tree of arrays, each with its comoving flag. Division by zero density is an error. C103_histogram_masses_refuted shows that a histogram of another field fails without masses.",
 "C104": "Numbers are real numbers (rational in masks), without units. Datasets on this machine, not remote ones. For slices the smoothing lengths are positive and the backend is sph. The mask argument of the picture functions is None. C104_no_margin_refuted shows that a mask of just the region is not enough.",
 "C105": "Integers and floats are functions of the unsigned number their bytes make. Array-valued fields of structures and overlapping fields are not modelled. What numpy's byteswap does to structures and that numba refuses other byte orders are statements about these libraries (trusted). C105_nested_refuted and C105_compiled_refuted are the exceptions.",
 "C106": "Texts are ASCII (bytes carry the text they decode to, if any); how Python writes numbers is a parameter; numbers of attributes are rational, of arrays real. Which rows and columns are read is C20 and C21; the unit system of the file is a parameter (C52-C56). C106_labels_differ_refuted, C106_bytes_refuted and C106_locked_comoving are about behaviour a user may not expect.",
 "C107": "Joins the models of the writer (Writer), of the metadata (Meta) and of the getter (Label). How a real number is stored is a parameter; scale factor and exponents have to be stored exactly (exact_labels), and the reader has to take the units of the file for what they are (exact_units, see C55). Members of groups are listed in the order of their names, as h5py does. C107_extra_counts_refuted, C107_extra_hides_refuted and C107_extra_type_refuted show what an extra header can do. TripMaskModel.v: the start of making a mask (C107_mask_starts, C107_no_mask_refuted).",
 "C108": "The dimensions and units of the fields are stated anew in AssignSpec.v (measures, stored_in). C108_ids_units_refuted: masses are accepted as IDs. C108_box_label_refuted: the scale factor of the box is not checked when a writer is made. IDs given as an array are a copy in the model and a view in Python.",
 "C109": "C109_read, _unreadable and _bytes say what is read from the attributes; C109_round_trip extends C107 to units that are not read exactly; C109_default_velocities_refuted is about the default units with the sizes of the astronomical units restricted as in usual_consts, which those of unyt meet (unyt_usual). Attributes that are letters (C109_bytes) are taken for their codes.",
 "C110": "Combines the tree written by the subset writer (C73, C74) with the metadata objects (C77): ReopenModel.v says what the latter see of the former. C110_opens compares all attributes that do not change, C110_type, C110_numbers and C110_subhalos give the new values, C110_groups compares all groups that are copied whole (Units among them). Names have no slash in them (proper_names). C110_empty_type_refuted and C110_group_number_refuted are the two exceptions.",
 "C111": "RoundModel.v states the loops once for any record of operations (arith); nothing is assumed of the operations, so C111_projections, C111_gpu, C111_slices and C111_volumes hold for float32, float64 and fast-math alike. C111_exact_*: with the real numbers as arithmetic these loops equal those of VisModel.v. Sums of integers do not overflow (numba computes them with 64 bits).",
 "C112": "Positive theorems for real numbers rounded to nearest even with 53 (24) bits and unbounded exponents (Flocq's FLX format); refutations computed with the IEEE operations of Coq.Floats.SpecFloat: C112_deposit_edge_refuted (position 105 - 2^-46 in a box of 105, 128 cells: index 128), C112_deposit_below_zero_refuted, C112_lookup_nan_refuted (the index is -2^31). The operations are in double precision, conversions of the resolution in single. deposit and apply_color_map are compiled with fastmath, which lets the compiler reorder operations; the refutations are computed in the order of the source.",
 "C113": "RoundMaskModel.v states the selection of cells for any record of operations. C113_exact and C113_extents_exact: over the rationals it is MaskModel.v. C113_complete, C113_padded_extent, C113_nothing_more: real numbers rounded to nearest even with 53 bits (Flocq); differences with the box are exact by Sterbenz' lemma. C113_computed covers all other regions: a cell is kept if a shifted position, as computed, is inside of the bounds, as computed. C113_lost_refuted: IEEE doubles, box of 1, region from 3/8 to 0.1 (next number).",
 "C114": "RoundTripProofs.v: for round to nearest even in Flocq's FLX format, x -> x*f/f and x -> x/f*f are idempotent (C114_settles for arrays and sequences of conversions, C114_settles_physical). Exponents are unbounded: no overflow, no subnormal numbers. C114_exact: with real numbers the model is that of CosmoModel.v. Arrays of float32 are covered with p = 24 and the factor rounded to 24 bits. Copies of integer arrays are not modelled.",
 "C115": "RoundSumModel.v adds up the writes of RoundModel.v in any arithmetic, with the images of numba's workers for prange reductions. C115_exact and C115_exact_parallel: with real numbers these are the images of VisModel.v (C36). Bounds in Flocq's FLX format: no overflow, no subnormal numbers; images of float32 (u = 2^-24 + 2^-53 + 2^-77) and float64. fastmath, which lets the compiler reorder sums, is not modelled. Totals: particles of the unit square without periodic copies; depositions for positions up to the last bits before the edge of the folded box (C112).",
 "C116": "h5py is external: slices are clipped as in Python (py_slice) and read_direct wants equal numbers of rows or one row in the source, which it repeats; both empty fails with ZeroDivisionError in h5py's selections. UndefinedRead stands for a numba kernel that reads outside of its buffer (no bounds check). One axis of rows; remote files are not part of C116.",
 "C117": "h5py is external: expand_shape and the blocks of SimpleSelection.broadcast are modelled on lists of lengths. In chunked datasets all ranges are taken to have rows (C117_masked, C117_subset; not needed in C117_masked_refuted). Rows are compared element by element; the shape of the array that the subset file gets is not part of the claim. Remote datasets are not part of C117.",
 "C118": "Differences and sums of 32-bit integers are taken as numba computes them, in 64 bits. The conversion is a parameter with the hypothesis keeps_outside; that x86 takes the smallest and ARM the nearest integer is not proved but written down as the definitions smallest and saturated. NaN is not converted (RoundModel's int32 covers it).",
 "C119": "Integers are signed; numba's mixed sums of unsigned and signed integers (which become floating-point numbers) do not occur for the int64 arrays that np.where gives. numba reads out of bounds without check: UndefinedRead.",
 "C120": "What unyt does with units is written down in UnitOpModel.v, not taken from its source: operands of sums are brought to the unit of the first, zeros fit any unit, lists are brought to the unit of their first element. A unit is a size and a dimension, the algebra of dimensions is a parameter; units with offsets and logarithmic units are left out. Comparisons with plain numbers are left out. In a list the order of the unit error and the last check of the labels is that of the model.",
 "C121": "That numba raises ZeroDivisionError for a zero divisor (its default error model) and that np.zeros refuses negative lengths is written down in DivModel.v. Arithmetic is on real numbers: products that underflow to zero in 32 bits are not covered. GPU kernels, threads and the use without numba are left out.",
 "C122": "Every operation of the front ends goes through the arithmetic of CosmoModel.v; the theorems connect it to the bare numbers of FrontModel.v, to which C42, C43, C62 and C63 apply. Lengths are in one unit (C120 has units). The (n, 3) coordinates are three columns, the matrix product is written as products and sums, the in-place remainder as a remainder. The equality of projections needs a backend that ignores heights (C122_blind shows that all serial ones do). Warnings are not modelled.",
 "C123": "Numbers are real numbers, infinities or not a number; rounding and the sign of a zero are not modelled, so that nothing is said about the sign of an infinite voxel. The backend is an argument that may be given any such numbers. Slices are those of the backend sph; regions with both sides reversed are covered by C123_projection only.",
 "C124": "Exact real arithmetic; the tree of scipy is modelled as the search for the least distance (C59). Sizes must not be zero. Which one of several nearest particles is taken is left open by the statement. That the sizes are cube roots of the volumes is C103_nearest.",
 "C125": "WrapModel.v states the wrapping and the depth for any record of operations. C125_exact: with real numbers these are the functions of FrontModel.v. The positive theorems are for real numbers rounded to nearest even with 53 bits (Flocq's FLX format: no overflow, no subnormal numbers); the refutations are computed with the IEEE operations of Coq.Floats.SpecFloat. The extent and the limits of the region are given numbers; what rounding does to the later loops is C111, C112 and C115. C37-C41 and C91 take positions with the end of the box included.",
 "C126": "RowsModel.v gives the formulas for the numbers of pixels in any arithmetic; the theorems are about rounding to 53 bits without bounds on exponents, the refutations are computed in IEEE double precision and show a slice larger than the resolution asked for and projections and slices of the same region with different shapes. Coq's real numbers (standard axioms) are used.",
 "C127": "Composition of the models of Subset, Mask, Reader, Pipe, Get and Front (C22, C23, C104). The only new definition is the list of attributes of a group; that subset files have the names and attributes of their originals is C73 and C110. The masked theorems are for subset files in which no type is empty (a file with an empty dataset is read but not subset again, C22). Positions of particles in cells are rational, pictures real; Coq's real numbers (standard axioms) are used.",
 "C128": "HrangeModel.v adds the keyword range to the histogram of C69; the refutations show that a range given as a pair is taken in the frame of the data and that a range without width is widened by a unit of that frame. Ranges of plain numbers are left out. Coq's real numbers (standard axioms) are used.",
 "C129": "PackModel.v is optional_packages.py as a function of what can be imported, with the checks made by its users. What the packages themselves compute is left out.",
 "C130": "PrintModel.v has the texts; unyt's text of an array and Python's text of a list are arguments. The refutations show equal fields with named columns of different groups.",
 "C131": "HaxesModel.v adds the keyword range to the histograms of several axes and to histogram_bin_edges of C69. Ranges of plain numbers and bins named by a string are left out. Coq's real numbers (standard axioms) are used.",
 "C132": "Follows from C07 and C90: from the names in the file and the argument safe_padding to the rows under the name of the group. The refutation concerns the docstring of swiftsimio.mask; docs/source/masking/index.rst says a tenth.",
 "C133": "Numbers have 53 bits and no limits of the exponent (no underflow); the arguments of kernel_single_precision are given, their conversion to single precision by numba's signature is not part of it. numba's fastmath may reorder the operations; the bound is for the order of the source. The edge is computed with IEEE doubles.",
 "C134": "Derived from the exact set of cells of C08 and the union of C11. The example of the documentation that passes safe_padding to constrain_spatial cannot run: the method has no such parameter (it belongs to swiftsimio.mask); Python's check of parameters is not modelled.",
 "C135": "With exact real numbers. Both pictures are of quantities that are in the same frame (comoving or physical); division by a zero normalisation is Coq's total division, which C121 treats separately. The parallel and GPU functions come in through C36.",
 "C136": "Numbers are rounded to 53 bits (and to 24 in images of single precision) without bounds on the exponent, in the order of the source; the quotient itself is exact (its rounding is one more factor). The GPU function is not included: it has atomic additions in any order.",
 "C137": "Numbers are rounded to 53 bits without bounds on the exponent; np.matmul adds three products in an order that is an argument of the model, without fused multiplications. The error of rotation_matrix_from_vector itself is an hypothesis (e), its exact value is C45.",
 "C138": "unyt's text and the text of a factor are arguments; texts are ASCII. Coercion of the arguments of array_repr is left out: there is one array.",
 "C139": "On the model of masks of C06-C13 (rational numbers). The decorator passes the arguments on; which warnings are shown is up to Python's filters, of which the one that raises is included.",
 "C140": "Composes the models of masks, reader, picture functions and the nearest-neighbour backend (C07, C19, C103, C124). Groups with the field volumes; real numbers. The spatial theorem is for periodic pictures without rotation, the one for given masks also for others.",
 "C141": "Up to the skew matrix and the cosine; np.arccos, np.sin and np.linalg.inv are not rounded here, so C141_matrix and C141_rotated are about the exact inverse of the matrix of the rounded directions. Without rounding it is proved to be the model of C45. Exponents are without limits except in C141_long_refuted and C141_short, which are computed with IEEE doubles.",
 "C142": "numpy's broadcasting of one axis, its refusal of lists of arrays of different lengths (1.24 and later) and of values with more than one axis assigned through a boolean mask are written down in BoundModel.v. Bounds with two or more axes are not in the model. Numbers are in one frame and unit (C100, C120).",
 "C143": "Exponents have no limits here (no overflow or underflow). C143_image compares with copies at the positions computed for them, C143_periodic with their exact positions. Kernels not wider than a pixel are added to one pixel in full (C143_narrow) and are not compared with the kernel. Only the fast backend and the GPU's loop; fused multiplications and other fastmath changes are not modelled. The C143_compiled theorems and C143_gpu have what numba's signatures and arrays of single precision narrow; C143_value to C143_periodic, C143_parallel and C143_narrow do not (masses and smoothing lengths of double precision, no signature). Literals such as 1.0 are of double precision, as for numba; the interpreted functions with NumPy 2, where they take the precision of the other operand, are not modelled. C143_parallel is for the images of several threads added in any grouping, C143_gpu for GPU threads in any order, compared with copies at the positions computed for them, C143_gpu_periodic with their exact positions.",
 "C144": "Exponents have no limits here (no overflow or underflow) and the integers do not wrap, which bounds of 2^30 pixels allow. Fused multiplications and other fastmath changes are not modelled. C144_slice_parallel and C144_volume_parallel are for several threads. Literals are of double precision, as for numba (see C143)."
}