{"id": "C01", "title": "Range lists and index lists describe the same rows", "statement": "Converting a list of row indices to a list of half-open ranges and expanding the ranges again returns exactly the original index list (same order, same multiplicity); every range produced is non-empty and no two successive ranges could have been joined. An empty index list gives the single empty range [0,0].", "quantifier": "every list of integer indices (sorted or not, with or without duplicates, any length)", "why_tests_cant": "An off-by-one at a run boundary only shows for particular run patterns; no finite set of lists covers all patterns.", "anchors": ["swiftsimio/accelerated.py: ranges_from_array, expand_ranges"]}
{"id": "C02", "title": "A masked read of a contiguous dataset returns exactly the requested rows", "statement": "Reading a list of in-bounds ranges from an unchunked dataset into a buffer whose length is the total of the range lengths returns the rows of the first range, then of the second, and so on; no element of the returned buffer is left uninitialised. A buffer that is too large leaves uninitialised rows. A buffer that is too small is an error, unless all ranges that do not fit any more have one row each: those rows are lost without an error (h5py broadcasts one row over an empty destination).", "quantifier": "every dataset length and content, every list of in-bounds ranges in any order, including empty ranges", "why_tests_cant": "Depends on the accumulated write position for arbitrary lists of ranges.", "anchors": ["swiftsimio/accelerated.py: read_ranges_from_file_unchunked"]}
{"id": "C03", "title": "Chunked reading agrees with contiguous reading", "statement": "For ranges whose starts and whose ends are in non-decreasing order, reading a chunked dataset (whole chunks are read and the rows are then extracted) returns exactly the rows that reading the same ranges from a contiguous copy of the dataset returns, whatever the chunk size.", "quantifier": "every dataset, every chunk size >= 1 (also larger than the dataset), every list of in-bounds ranges with non-decreasing starts and ends (empty, adjacent, overlapping and repeated ranges included)", "why_tests_cant": "Chunk merging, the chunk pointer and the running sum interact; correctness needs an invariant over arbitrary range lists and chunk sizes.", "anchors": ["swiftsimio/accelerated.py: get_chunk_ranges, extract_ranges_from_chunks, read_ranges_from_file_chunked"]}
{"id": "C04", "title": "Chunked reading of ranges that are out of order is not safe", "statement": "If the ranges are not in non-decreasing order, a chunked read can return different rows from a contiguous read of the same ranges, although both are in bounds and the same API call is made: the guarantee of C03 does not extend to arbitrary range lists, even if they are disjoint.", "quantifier": "existential: a dataset, a chunk size and a list of disjoint in-bounds ranges", "why_tests_cant": "The failure is specific to a layout; a test that happens to pass says nothing about other layouts.", "anchors": ["swiftsimio/accelerated.py: get_chunk_ranges, extract_ranges_from_chunks"]}
{"id": "C05", "title": "Remote reads return rows in the requested order", "statement": "Requesting pairwise non-overlapping ranges in any order from a remote (hdfstream) dataset returns the rows in the order in which the ranges were given. The slices sent to the server are non-empty, sorted, pairwise disjoint and non-adjacent. If two non-empty ranges overlap an error is raised instead.", "quantifier": "every list of ranges (any order, empty ranges allowed), every dataset, and every sorting algorithm that could implement the (unstable) argsort", "why_tests_cant": "Permutation, merging and inverse permutation must cancel for all orders.", "anchors": ["swiftsimio/_ordered_slices.py: OrderedSlices.__init__, OrderedSlices.reorder_result", "swiftsimio/accelerated.py: read_ranges_from_hdfstream"]}
{"id": "C06", "title": "The storage layout never changes what a masked read returns", "statement": "For in-bounds ranges with non-decreasing starts and ends that do not overlap, the public range reader returns the same rows whether the dataset is contiguous, chunked with any chunk size, or remote, and independently of the average-range-size heuristic that picks the reader.", "quantifier": "every dataset, layout, chunk size and ordered range list", "why_tests_cant": "The three code paths share no code; equality must hold for all inputs.", "anchors": ["swiftsimio/accelerated.py: read_ranges_from_file"]}
{"id": "C07", "title": "A spatial mask loads every particle in the region", "statement": "After constrain_spatial(region) on a fresh mask, every particle strictly inside the periodic region is selected, provided the particle lies in the bounding box recorded (or padded) for the cell it is stored in. Periodic means: some periodic image of the particle lies in the interval on each axis, where an interval whose lower bound exceeds its upper bound wraps through the box edge.", "quantifier": "every cell layout, every particle, every region within [-L/2, 3L/2] on each axis (normal, inverted, longer than the box), every box size > 0", "why_tests_cant": "Real-valued regions and positions; the choice of three periodic shifts has to be enough for all of them.", "anchors": ["swiftsimio/masks.py: SWIFTMask.constrain_spatial, _generate_cell_mask, _update_range_masks", "docs/source/masking/index.rst"]}
{"id": "C08", "title": "A spatial mask loads only cells that touch the region", "statement": "constrain_spatial selects a cell if and only if on each axis the region is longer than the box or the interior of the periodic interval meets the interior of the cell's bounding box (or its periodic image): no other cell is ever read.", "quantifier": "every cell layout, region and box size", "why_tests_cant": "An over-inclusive mask still passes completeness tests; the equivalence quantifies over reals.", "anchors": ["swiftsimio/masks.py: _generate_cell_mask"]}
{"id": "C09", "title": "Closed region boundaries are not honoured", "statement": "A particle lying exactly on the boundary of the requested interval can be left out when its cell's bounding box ends exactly there: completeness (C07) holds for the open region only.", "quantifier": "existential: a cell, a particle on the region boundary", "why_tests_cant": "A measure-zero event that random tests do not hit.", "anchors": ["swiftsimio/masks.py: _generate_cell_mask"]}
{"id": "C10", "title": "Out-of-window regions are rejected and leave the mask alone", "statement": "On every reachable mask, constrain_spatial raises ValueError if and only if the region is not three entries of None or two bounds, or the call is otherwise allowed and some bound is outside [-L/2, 3L/2]; raising any error leaves the mask (selection, cell mask and constraint state) as it was.", "quantifier": "every region and mask state", "why_tests_cant": "Exception safety must hold in every state.", "anchors": ["swiftsimio/masks.py: _generate_cell_mask, constrain_spatial, _constraint"]}
{"id": "C11", "title": "union=True selects the union of the regions", "statement": "Any number of constrain_spatial(..., union=True) calls on a mask in range form selects exactly the particles that at least one of the regions selects on its own; the order of the calls is irrelevant and repeating a region changes nothing.", "quantifier": "every sequence of regions, every cell layout", "why_tests_cant": "Statement about all finite histories.", "anchors": ["swiftsimio/masks.py: constrain_spatial, _update_range_masks"]}
{"id": "C12", "title": "Converting the mask between union calls loses particles", "statement": "If the mask is converted to boolean form between two constrain_spatial(..., union=True) calls - explicitly, or by a property constraint that fails - the second call selects nothing new: the union guarantee (C11) fails for that call history. In boolean form a spatial constraint only ever removes particles.", "quantifier": "existential: a cell layout and a call history", "why_tests_cant": "Depends on a particular interleaving of public calls.", "anchors": ["swiftsimio/masks.py: convert_masks_to_bool, _update_range_masks"]}
{"id": "C13", "title": "Only documented constraint sequences succeed", "statement": "For every history of constrain_spatial/constrain_property/constrain_index/constrain_indices/convert calls: a spatial constraint succeeds only on an unconstrained mask or, with union, directly after a successful spatial constraint; index constraints succeed only on an unconstrained mask of a file with homogeneous arrays; property constraints are always allowed. A call that raises does not change which particles are selected.", "quantifier": "every finite call history", "why_tests_cant": "Histories are unbounded.", "anchors": ["swiftsimio/masks.py: _constraint, constrain_spatial, constrain_property, constrain_index, constrain_indices"]}
{"id": "C14", "title": "A property constraint keeps exactly the particles in (lower, upper]", "statement": "After constrain_property the selected particles of that type are exactly the previously selected ones whose value v satisfies lower < v <= upper; other types with their own mask are unchanged; successive property constraints commute and select the intersection.", "quantifier": "every mask state (range or boolean form), every data array and bounds", "why_tests_cant": "Boolean-mask-of-boolean-mask assignment must be right for all patterns.", "anchors": ["swiftsimio/masks.py: constrain_property"]}
{"id": "C15", "title": "Converting a mask between forms does not change the selection", "statement": "convert_masks_to_bool and convert_masks_to_ranges preserve the set of selected rows; from boolean form they give ranges that list exactly the selected rows in increasing order, with the reported size equal to their number; converting there and back is the identity on boolean masks.", "quantifier": "every mask", "why_tests_cant": "Quantifies over all bit patterns and range lists.", "anchors": ["swiftsimio/masks.py: convert_masks_to_bool, convert_masks_to_ranges"]}
{"id": "C16", "title": "Row selection returns the requested rows", "statement": "constrain_indices(idx) followed by a read returns the rows at the sorted indices (repeated as often as listed) and the reported size is len(idx); on a mask in boolean form it selects the set of the indices, each once.", "quantifier": "every in-bounds index list, in any order with repetitions", "why_tests_cant": "All lists.", "anchors": ["swiftsimio/masks.py: constrain_indices, constrain_index"]}
{"id": "C17", "title": "Cell counts of a masked snapshot count the selected particles", "statement": "The per-cell counts and offsets computed for a mask are such that count[i] is the number of selected particles stored in cell i, offset[i] is the number selected in earlier cells and the counts add up to the total selected, in both mask forms, if the cells tile the file in the order listed. Sorted cells that merely partition the file are not enough: an empty cell listed after the cell starting at the same offset makes the counts wrong.", "quantifier": "every partition of the file into cells, every boolean mask and every list of sorted disjoint ranges", "why_tests_cant": "searchsorted boundary cases (empty cells, ranges spanning many cells) are unbounded.", "anchors": ["swiftsimio/masks.py: _get_masked_counts_offsets"]}
{"id": "C18", "title": "Cell counts of an empty mask can be negative", "statement": "For the empty mask (the single range [0,0]) over a particle type whose first cell does not start at file offset 0, the computed count of the first cell is negative: C17's hypothesis that cells partition the file from 0 is needed.", "quantifier": "existential: a cell layout", "why_tests_cant": "Specific layout.", "anchors": ["swiftsimio/masks.py: _get_masked_counts_offsets"]}
{"id": "C19", "title": "Masking never duplicates particles", "statement": "A spatially masked read returns each particle of the file at most once, and a region longer than the box on every axis (or no constraint at all) returns every particle exactly once.", "quantifier": "every partition of the file into cells, every sequence of regions", "why_tests_cant": "All layouts and regions.", "anchors": ["swiftsimio/masks.py: _update_range_masks, _generate_cell_mask", "docs/source/masking/index.rst"]}
{"id": "C20", "title": "All fields of a masked dataset stay row-aligned", "statement": "For a dataset loaded with a mask, row i of every field of a particle type belongs to the same particle: each field (or named column) equals the unmasked field indexed by one common list of rows, whatever the storage layout of the individual fields, provided the particle type's cells tile the file in the sorted order. Without that condition it is false: when another type's empty cells make the order ambiguous, a chunked and a contiguous field of the same type show different rows.", "quantifier": "every file, every mask reachable by a history of constraints and conversions, every set of fields, columns and per-field layouts (remote: non-empty selection without repetitions)", "why_tests_cant": "Different fields may use different readers; alignment must hold for all of them.", "anchors": ["swiftsimio/reader.py: _generate_getter, _generate_datasets", "swiftsimio/accelerated.py: read_ranges_from_file"]}
{"id": "C21", "title": "Lazy loading is transparent", "statement": "For every history of get/set/delete operations on the fields of a dataset, a get returns the last value set since the last delete, otherwise the (masked) file content; each field is read from file at most once between deletes, and operations on one field never affect another field.", "quantifier": "every finite history of field operations", "why_tests_cant": "Histories are unbounded.", "anchors": ["swiftsimio/reader.py: _generate_getter, _generate_setter, _generate_deleter"]}
{"id": "C22", "title": "Writing a subset and loading it equals a masked load", "statement": "For a mask of a file whose cells tile it, write_subset succeeds and the new file holds for every field exactly the rows a masked load of the original gives; header particle counts equal the numbers of rows written and the cell table of the new file tiles it. A file that contains a dataset without rows cannot be subset, so the subset of a mask that selects no particle of one type cannot be subset again (finding).", "quantifier": "every well-formed file, every mask reachable by constraints and conversions, every field and column", "why_tests_cant": "Composition of two programs over all inputs.", "anchors": ["swiftsimio/subset_writer.py: write_subset, _write_datasubset, _update_metadata_counts, _write_metadata"]}
{"id": "C23", "title": "Masking a subset file equals masking the original with both masks", "statement": "Applying a spatial mask to a subset file selects exactly the particles that the subset mask selected and whose original cell the region touches.", "quantifier": "every well-formed file with tiling cells, every subset mask, every region", "why_tests_cant": "Composition law over all inputs.", "anchors": ["swiftsimio/subset_writer.py: _update_metadata_counts", "swiftsimio/masks.py: _get_masked_counts_offsets, _update_range_masks"]}
{"id": "C24", "title": "The output type of a subset file is stable", "statement": "Writing a subset marks the file as a subset type that the loader still recognises, with the same kind (particles/FOF/SOAP) as the original, and subsetting a subset leaves the type unchanged.", "quantifier": "every recognised output type", "why_tests_cant": "Needs agreement of two tables in different modules.", "anchors": ["swiftsimio/subset_writer.py: _write_metadata", "swiftsimio/metadata/objects.py: _metadata_discriminator"]}
{"id": "C25", "title": "Comoving/physical conversion is lossless", "statement": "Converting an array to comoving and to physical and back restores values and flags; converting twice is the same as converting once; conversion never changes the physical value represented.", "quantifier": "every value, scale factor > 0 and exponent (exact arithmetic)", "why_tests_cant": "All reals / exponents.", "anchors": ["swiftsimio/objects.py: convert_to_comoving, convert_to_physical, to_comoving, to_physical"]}
{"id": "C26", "title": "Array arithmetic respects comoving and physical coordinates", "statement": "For arrays for which the transformation is allowed (valid_transform True), the physical value of a sum, difference, product, quotient, maximum, minimum, power, root, total, product of elements or comparison equals the operation applied to the physical values of the operands, whatever mixture of comoving and physical operands is given, for arbitrarily nested expressions whose a-exponents match. Sums and comparisons whose scale factors differ or whose scale-factor powers differ by more than the tolerance are rejected; one accepted within the tolerance is wrong by at most the tolerance, and the absolute tolerance 1e-8 does let unlike exponents through at small scale factors.", "quantifier": "every operation, operands in every comoving/physical combination, every scale factor and exponents, arbitrary nested expressions", "why_tests_cant": "Arbitrary expressions and states.", "anchors": ["swiftsimio/objects.py: cosmo_array.__array_ufunc__, cosmo_factor", "swiftsimio/_array_functions.py: _prepare_array_func_args, _preserve_cosmo_factor, _multiply_cosmo_factor, _divide_cosmo_factor, _power_cosmo_factor"]}
{"id": "C27", "title": "Mixed arithmetic with a non-convertible operand gives a wrong value", "statement": "If one operand must stay physical (valid_transform False) and another is comoving, the comoving operand is not converted but the result is labelled physical, so its physical value is wrong unless the conversion factor is 1.", "quantifier": "existential plus: for every scale factor/exponent with a^k /= 1 and non-zero value", "why_tests_cant": "The branch converts the wrong operands; only visible for mixed operands.", "anchors": ["swiftsimio/_array_functions.py: _prepare_array_func_args lines 940-961"]}
{"id": "C28", "title": "Arrays that must not be converted never are", "statement": "Along every history of views, copies, conversions, arithmetic and re-wrapping that does not override valid_transform, an array with valid_transform False keeps its numbers and attributes: any attempt to convert it to comoving raises and changes nothing, and everything computed from it, directly or indirectly, also has valid_transform False and is not comoving.", "quantifier": "every finite history", "why_tests_cant": "Invariant over all histories.", "anchors": ["swiftsimio/objects.py: _verify_valid_transform_validity, convert_to_comoving", "swiftsimio/_array_functions.py: _prepare_array_func_args"]}
{"id": "C29", "title": "Scale-factor bookkeeping is a homomorphism", "statement": "The a-exponent of a product, quotient and power is the sum, difference and multiple of the operand exponents; combining different scale factors is an error; a sum requires equal exponents. Multiplying and then dividing returns the original exponent.", "quantifier": "every exponent and scale factor", "why_tests_cant": "All values.", "anchors": ["swiftsimio/objects.py: cosmo_factor"]}
{"id": "C30", "title": "Equality of scale-factor labels is not an equivalence of exponents", "statement": "Two labels compare equal exactly if their scale factors are equal and the a-factors agree within a tolerance relative to the second; the relation is reflexive, but it is neither symmetric nor transitive, and at scale factor 1 it identifies all exponents (contrary to its docstring).", "quantifier": "universal for reflexivity/symmetry; existential for the failures", "why_tests_cant": "Needs specific real values.", "anchors": ["swiftsimio/objects.py: cosmo_factor.__eq__"]}
{"id": "C31", "title": "Generated particle IDs are unique and consecutive", "statement": "When IDs are generated on writing, the IDs over all written particle types are 1..N, each used once, where N is the total number of particles, in the order of the types written.", "quantifier": "every history of a writer (arrays created, changed, assigned, deleted, written)", "why_tests_cant": "All counts.", "anchors": ["swiftsimio/snapshot_writer.py: _generate_ids"]}
{"id": "C32", "title": "Duplicate IDs are never written", "statement": "write() raises before creating the file if IDs are supplied for all written types and two particles (of the same or of different types) share one; otherwise the written IDs are pairwise distinct; if any written type lacks IDs, all IDs are regenerated.", "quantifier": "every history of a writer", "why_tests_cant": "All inputs.", "anchors": ["swiftsimio/snapshot_writer.py: write, _generate_ids, setter"]}
{"id": "C33", "title": "Written a-exponents and units are read back", "statement": "The a-exponent and unit dimensions stored with a dataset by the writer are those the reader reconstructs, so the physical values are read back, for every non-zero exponent; an exponent of zero given as a Python integer is (when sympy simplifies a**0 to 1) stored as one and therefore read back wrongly.", "quantifier": "every exponent and unit dimensions; existential for the failure", "why_tests_cant": "All exponents.", "anchors": ["swiftsimio/snapshot_writer.py: get_attributes, get_dimensions", "swiftsimio/metadata/field/attr_reader.py: _load_field_units, _load_field_cosmo_factor"]}
{"id": "C34", "title": "Field names become snake_case names", "statement": "The conversion of HDF5 field names to attribute names is lower case with an underscore before each capital that follows a lower-case letter or digit; it yields no upper-case letters, changes exactly the names with upper-case letters, is idempotent, keeps all letters and is injective on CamelCase names; other distinct names can collide (e.g. XRayLuminosities and XrayLuminosities).", "quantifier": "every ASCII name; existential for the collision", "why_tests_cant": "All strings.", "anchors": ["swiftsimio/metadata/objects.py: _convert_snake_to_camel"]}
{"id": "C35", "title": "File handles are closed by their owner and only by it", "statement": "For every history of opening, loading, masking, reading, constructing and closing, with any access failing: a handle opened by the user stays open until the user closes it; every access is made through an open handle; a handle opened internally is closed when the call ends, also if it raises, except when a constructor is called directly and raises or get_metadata() and its like are called again on an object made from a path (these leave the file open). What load(path) returns can be read but not asked for its metadata again. A call given an open handle reads through that handle only and opens nothing; a call given a path opens it once; an access that fails unguarded is what the call raises, and a call with no failing access succeeds.", "quantifier": "every history of operations and every pattern of failing accesses", "why_tests_cant": "Unbounded histories.", "anchors": ["swiftsimio/_handle_provider.py: HandleProvider", "swiftsimio/_file_utils.py: open_path_or_handle"]}
{"id": "C36", "title": "Parallel images equal serial images", "statement": "The parallel scatter functions of the projection backends, the GPU kernel, the sph slices and the volume renderings give the same image as the serial ones for every number of threads and any order in which the threads finish (exact arithmetic): every particle is deposited by exactly one thread. The parallel volume function with res_ratio_z other than 1 is the exception: it fails, or repeats the single layer, because its output is always a cube.", "quantifier": "every particle list, thread count and schedule", "why_tests_cant": "Schedules and thread counts are unbounded.", "anchors": ["swiftsimio/visualisation/projection_backends/*: scatter_parallel"]}
{"id": "C37", "title": "Periodic tiling misses no image", "statement": "For positions wrapped into [0, box), every periodic image whose kernel reaches the image area is among the tiles used by the projection backends, if the kernel is not wider than the box; no image is used twice. scatter_limited_z takes three copies always, which misses images if the region is larger than the box.", "quantifier": "every box size, position, kernel radius", "why_tests_cant": "All reals.", "anchors": ["swiftsimio/visualisation/projection_backends/fast.py: scatter"]}
{"id": "C38", "title": "Pixel values of the smoothed projection are complete kernel sums", "statement": "For the fast backend, each pixel equals the sum over all particles and periodic images of mass times kernel evaluated at the pixel centre, for particles whose kernel spans more than one pixel; no write is out of bounds.", "quantifier": "every particle set, resolution, kernel with compact support", "why_tests_cant": "Window arithmetic over all positions.", "anchors": ["swiftsimio/visualisation/projection_backends/fast.py: scatter"]}
{"id": "C39", "title": "Histogram projections conserve mass", "statement": "The sum of the pixels of the histogram backend times the pixel area is the total mass of the particles (images) falling in the image; for a full periodic box it is the total mass of all particles.", "quantifier": "every particle set, resolution", "why_tests_cant": "All particle sets.", "anchors": ["swiftsimio/visualisation/projection_backends/histogram.py: scatter"]}
{"id": "C40", "title": "The renormalised projection conserves mass only up to the kernel edge", "statement": "The renormalised backend deposits each interior particle's mass exactly if and only if the kernel weights in the outermost ring of pixels, which the normalisation leaves out, add up to zero; there are particles for which this fails, so the documented mass conservation does not hold in general.", "quantifier": "every particle away from the image edge; existential for the failure", "why_tests_cant": "Depends on kernel/pixel geometry.", "anchors": ["swiftsimio/visualisation/projection_backends/renormalised.py: scatter", "docs/source/visualisation/projection.rst"]}
{"id": "C41", "title": "Slices and volume renderings drop the upper edge of kernels", "statement": "The slice and volume backends do not visit the pixel row p+cells_spanned on the upper side, although the kernel can be non-zero there: the image of a particle is not symmetric under reflection and differs from the complete kernel sum.", "quantifier": "existential: a particle; universal: all pixels other than the upper row are complete", "why_tests_cant": "Specific positions relative to the pixel grid.", "anchors": ["swiftsimio/visualisation/slice_backends/sph.py: slice_scatter", "swiftsimio/visualisation/volume_render_backends/scatter.py: scatter"]}
{"id": "C42", "title": "Depth selection of projections is periodic-interval membership", "statement": "With a z-range of positive length up to the box length, the particles used in a periodic projection are exactly those with an image in the closed interval [z_min, z_max] (after rotation and masks), and a picture with a depth is the picture without it of those particles; deeper ranges are refused. With a z-range of zero length all particles are used.", "quantifier": "every z-range, box size and particle", "why_tests_cant": "All reals.", "anchors": ["swiftsimio/visualisation/projection.py: project_pixel_grid"]}
{"id": "C43", "title": "Every pixel of a projection in dataset coordinates; surface densities are normalised by pixel area only for square regions", "statement": "Pixel (i, j) of the picture returned by project_pixel_grid is extent^2 / (x_extent y_extent) times the surface density deposited, by all periodic copies of the particles, in the square of side extent / resolution from (x_min + i d, y_min + j d). The picture summed times the true pixel area is the deposited mass if and only if the x and y extents of the region are equal (or the mass is zero). It has just enough rows and columns to cover the region.", "quantifier": "every region, box, rotation, resolution and particle list whose kernels fit the box", "why_tests_cant": "All regions.", "anchors": ["swiftsimio/visualisation/projection.py: project_pixel_grid", "swiftsimio/visualisation/_vistools.py: _get_region_info"]}
{"id": "C44", "title": "Power-spectrum deposition conserves mass and is periodic", "statement": "Depositing particles on the folded grid puts each particle in exactly one in-bounds cell, the total equals total mass times the fixed normalisation, and translating a particle by a multiple of the folded box leaves the grid unchanged.", "quantifier": "every particle set, folding and resolution", "why_tests_cant": "All positions including box edges.", "anchors": ["swiftsimio/visualisation/power_spectrum.py: deposit, deposit_parallel"]}
{"id": "C45", "title": "Rotation matrices rotate the given vector onto the axis", "statement": "For a vector further from the axis than one part in a million of its length, rotation_matrix_from_vector returns a proper rotation (orthogonal, determinant 1) about the common perpendicular that takes the vector's direction to the axis; for any other non-zero vector it returns the reflection that flips the axis (determinant -1), even if the vector already points along the axis.", "quantifier": "every non-zero vector, each axis", "why_tests_cant": "All real vectors.", "anchors": ["swiftsimio/visualisation/rotation.py: rotation_matrix_from_vector"]}
{"id": "C46", "title": "Smoothing-length generation processes every particle once", "statement": "The block loop of smoothing-length generation covers every particle index exactly once with in-bounds blocks, for any particle number and block size; every particle gets the distance to its k-th closest particle (over periodic images, itself included) times the correction factor. No particles, or a single neighbour to search for, give an error.", "quantifier": "every particle number, block size, neighbour number and box", "why_tests_cant": "Boundary cases at multiples of the block size.", "anchors": ["swiftsimio/visualisation/smoothing_length/generate.py: generate_smoothing_lengths"]}
{"id": "C47", "title": "Colour-map lookup is in bounds", "statement": "apply_color_map maps every pair of values to an in-bounds entry of the colour-map grid and maps values on the grid to their own entry, for values inside and outside [0,1]. With fewer second values than first values it reads out of bounds, and a call with a Python list of vertical values fails.", "quantifier": "every pair of values and grid size", "why_tests_cant": "All reals.", "anchors": ["swiftsimio/visualisation/tools/cmaps.py: apply_color_map"]}
{"id": "C48", "title": "Chunk ranges", "statement": "For ordered ranges inside a dataset, get_chunk_ranges returns ranges made of whole chunks (the last one may end with the dataset), in order, with a gap between any two, such that every requested range lies inside one of them; if no range is empty, only chunks that hold a requested row are read. An empty range inside a chunk makes the whole chunk be read.", "quantifier": "all chunk sizes, dataset lengths and ordered lists of ranges", "why_tests_cant": "All lists of ranges and all alignments with the chunks; reading too much does not change any result.", "anchors": ["swiftsimio/accelerated.py: get_chunk_ranges"]}
{"id": "C49", "title": "Compression labels of results are nested pairs", "statement": "The compression attribute of the result of a ufunc is not the operands' common attribute but the pair (True, attribute), one level deeper for every operation applied; operands with different attributes give None.", "quantifier": "every operation, every number of operations", "why_tests_cant": "Depth grows with the number of operations.", "anchors": ["swiftsimio/_array_functions.py: _prepare_array_func_args lines 963-968"]}
{"id": "C50", "title": "In-place conversion reaches arrays sharing memory", "statement": "Converting a view of a comoving array in place, or calling cosmo_array(x, comoving=False), multiplies the numbers of the original array but leaves its comoving flag, so the original then stands for values that are wrong by the conversion factor; the constructor can even do so and then raise.", "quantifier": "every array, scale factor and exponent", "why_tests_cant": "Needs aliasing between arrays and arbitrary states.", "anchors": ["swiftsimio/objects.py: cosmo_array.__new__, convert_to_physical, convert_to_comoving"]}
{"id": "C51", "title": "Re-wrapping an array lifts its protection", "statement": "cosmo_array(x) of an array with valid_transform False yields an array on the same memory with valid_transform True; converting it to comoving divides the numbers of the protected array.", "quantifier": "every array, scale factor and exponent", "why_tests_cant": "Needs aliasing and a history of two operations.", "anchors": ["swiftsimio/objects.py: cosmo_array.__new__ lines 1163-1210"]}
{"id": "C52", "title": "Files hold the arrays as they are when written", "statement": "The written numbers are those of the array object at the time of write(), taken by the reader as comoving numbers in the writer's base units; hence converting an assigned array to physical coordinates in place, or assigning the same array to a second writer with another unit system, makes the first writer's file wrong.", "quantifier": "every history of writers and arrays; existential for the failures", "why_tests_cant": "Needs aliasing and histories.", "anchors": ["swiftsimio/snapshot_writer.py: setter, write_particle_data"]}
{"id": "C53", "title": "The box size is read back if it was comoving", "statement": "A box size given in comoving coordinates is read back with the same physical size; one given in physical coordinates is written unconverted and read back multiplied by the scale factor.", "quantifier": "every box, unit system and scale factor", "why_tests_cant": "All scale factors.", "anchors": ["swiftsimio/snapshot_writer.py lines 661-697"]}
{"id": "C54", "title": "Header counts agree with the datasets", "statement": "In every file written, NumPart of a type is the length of each of its datasets, is positive, and is 0 for types absent from the file; a type whose arrays have length zero makes write() raise after the file was opened, and that or an unprintable scale-factor label are the only ways to leave an incomplete file; every group holds exactly the fields required of its type, each once.", "quantifier": "every history of a writer", "why_tests_cant": "All histories.", "anchors": ["swiftsimio/snapshot_writer.py: write, _write_metadata, check_consistent"]}
{"id": "C55", "title": "Reading units: nearest base unit and five figures", "statement": "find_nearest_base_unit returns a multiple of the base unit nearest in logarithm, which differs from the stored unit by at most 5e-5 of itself and is exact if five significant figures suffice; otherwise figures are lost.", "quantifier": "every unit and list of base units", "why_tests_cant": "Real-valued domain.", "anchors": ["swiftsimio/metadata/unit/unit_types.py lines 33-76"]}
{"id": "C56", "title": "Generated smoothing lengths are twice the mean spacing", "statement": "n cells of half the generated smoothing length fill the box in every dimension; unequal box sides raise ValueError.", "quantifier": "every box, number and dimension", "why_tests_cant": "Real-valued domain.", "anchors": ["swiftsimio/snapshot_writer.py: generate_smoothing_lengths"]}
{"id": "C57", "title": "Colliding names: the last field wins", "statement": "An attribute of a group gives the last field in file order whose name becomes it, so a field is unreachable exactly if a later name becomes the same attribute; CamelCase names are all reachable. Named columns are either all put in lower case or all left alone, so one acronym renames every column, and an empty list of names raises ZeroDivisionError.", "quantifier": "every list of names", "why_tests_cant": "All lists of names.", "anchors": ["swiftsimio/metadata/objects.py: load_field_names, load_named_columns", "swiftsimio/reader.py: _generate_datasets"]}
{"id": "C58", "title": "SOAP group names", "statement": "Groups Kind/variant of known kinds, with lower-case variants, get different attribute names; unknown kinds raise KeyError; deeper paths can collide and the nice name loses inner capitals.", "quantifier": "every name", "why_tests_cant": "All strings.", "anchors": ["swiftsimio/metadata/soap/soap_types.py"]}
{"id": "C59", "title": "Nearest-neighbour slices use the nearest periodic image", "statement": "Every pixel of a nearest-neighbour slice holds mass over cubed size of a particle that has a periodic image at least as close to the centre of the pixel as every image of every other particle.", "quantifier": "every particle set, box and slice position", "why_tests_cant": "All particle configurations and all images.", "anchors": ["swiftsimio/visualisation/slice_backends/nearest_neighbours.py: build_tree, slice_scatter"]}
{"id": "C60", "title": "Segmented colour maps are applied with their axes exchanged", "statement": "The grid of a LinearSegmentedCmap2D applied to a pair of grid values (first, second) gives the weighted mean colour (divided by 1.0001) at the point whose horizontal coordinate is the second value and whose vertical coordinate is the first, so the applied map is the transpose of the defined one. Components stay in [0,1].", "quantifier": "every list of colours and coordinates, grid size and pair of grid values", "why_tests_cant": "All maps.", "anchors": ["swiftsimio/visualisation/tools/cmaps.py: LinearSegmentedCmap2D.generate_color_map_grid, Cmap2D.__call__, apply_color_map"]}
{"id": "C61", "title": "Deposited densities conserve mass, for positions in the frame of the box", "statement": "The density returned by render_to_deposit, summed times the volume of a cell of the folded grid, is the total mass. Scaling positions and box together keeps every cell, but physical positions are accepted together with the comoving box and are put in other cells.", "quantifier": "every dataset, folding and resolution", "why_tests_cant": "All positions and scale factors.", "anchors": ["swiftsimio/visualisation/power_spectrum.py: render_to_deposit"]}
{"id": "C62", "title": "Slices in dataset coordinates", "statement": "Pixel (i, j) of the picture returned by slice_pixel_grid is the density kernel sum, over all periodic copies of the particles, at the centre of the pixel and the height z_slice above the centre of rotation, for any region (square or not), apart from the row the backend leaves out (C41).", "quantifier": "every region, box, rotation, height, resolution and particle list whose kernels fit the box", "why_tests_cant": "All reals; wrapping of the particles and of the slice height moves both by different numbers of boxes.", "anchors": ["swiftsimio/visualisation/slice.py: slice_pixel_grid"]}
{"id": "C63", "title": "Volume renderings in dataset coordinates", "statement": "For cubic regions voxel (i, j, k) of the grid returned by render_voxel_grid is the density deposited in it by all periodic copies of the particles. Regions that are not cubic are refused, except tiny ones (numpy.isclose has an absolute tolerance).", "quantifier": "every cubic region, box, rotation, resolution and particle list whose kernels fit the box", "why_tests_cant": "All reals.", "anchors": ["swiftsimio/visualisation/volume_render.py: render_voxel_grid", "swiftsimio/visualisation/_vistools.py: _get_region_info"]}
{"id": "C64", "title": "Wrapped numpy functions compute physical values", "statement": "Apart from the functions of C65, every wrapped function of one result (products, solvers, norms, differences, percentiles, linspace, where, clip, insert, trapezoid, interp, ...) applied to convertible arrays in any mixture of comoving and physical coordinates gives an array that stands for the function of the physical values and has the right exponent. Arrays that must scale alike are refused if their factors differ. Members of tuples carry no attributes.", "quantifier": "every function of the table, every scaling law of the computed function, all arrays and coordinates", "why_tests_cant": "All mixtures of coordinates, exponents and scale factors.", "anchors": ["swiftsimio/_array_functions.py: _prepare_array_func_args, _default_unary_wrapper, _default_binary_wrapper", "swiftsimio/_array_functions.py: linspace, solve, interp, where, clip, insert, trapezoid"]}
{"id": "C65", "title": "Functions whose labels do not match their results", "statement": "The variance keeps the exponent of its argument, Fourier transforms invert it, einsum keeps it (refusing unequal ones), a determinant takes it from the length of the first axis and a product from the size of the whole array even under a mask: from comoving numbers the result stands for a definite power of the scale factor times the true value. Rounding depends on the coordinates, clip ignores the keywords min and max, where with a condition alone always fails.", "quantifier": "all arrays, exponents and scale factors", "why_tests_cant": "The factor is 1 at redshift 0 and for physical arrays.", "anchors": ["swiftsimio/_array_functions.py: var, fft, einsum, det, prod, around, clip, where"]}
{"id": "C66", "title": "Functions of lists of arrays", "statement": "Stacking and concatenation of arrays with one exponent in any mixture of coordinates stand for the physical values. Unequal labels are not noticed, plain numbers in front remove the label. Results of select (with a plain default) and choose have no coordinates and can never be converted; choose does not convert its choices. Results of block cannot be converted to the other coordinates.", "quantifier": "all lists of arrays", "why_tests_cant": "All lists, labels and coordinates.", "anchors": ["swiftsimio/_array_functions.py: _default_oplist_wrapper, select, choose, block"]}
{"id": "C67", "title": "Writing into arrays and output arrays", "statement": "put, place, putmask, put_along_axis, copyto and fill_diagonal leave the destination standing for the physical values with the source written in; the source is converted in place and keeps its meaning; unequal labels are refused. Plain numbers are written in the coordinates of the destination, except by fill_diagonal, which fails. An output array is right unless it is physical and an argument is comoving: then it is relabelled and keeps its old numbers.", "quantifier": "all arrays and all ways of writing that commute with scaling", "why_tests_cant": "All mixtures of coordinates; the failing case needs out= and mixed coordinates.", "anchors": ["swiftsimio/_array_functions.py: _return_helper, put, place, putmask, put_along_axis, copyto, fill_diagonal"]}
{"id": "C68", "title": "Averages, reductions and comparisons", "statement": "Averages are right for every mixture of coordinates; the returned sum of weights is wrong by a power of the scale factor exactly if the weights are physical and the data comoving. Reductions keep label and coordinates; with a comoving initial value a physical result is wrong. Comparisons that commute with scaling compare physical values; absolute tolerances depend on the coordinates. interp does not compare the labels of its abscissae.", "quantifier": "all arrays and weights", "why_tests_cant": "All mixtures of coordinates.", "anchors": ["swiftsimio/_array_functions.py: average, _propagate_cosmo_array_attributes_to_result, meshgrid, isclose, interp"]}
{"id": "C69", "title": "Histograms", "statement": "Edges and counts or total weights are those of the physical values, in one and more dimensions: a bin holds the weights of the values at or above its lower and below its upper edge (at or below for the last bin). Densities are right without weights or with plain weights; with weights scaling as a^kw and comoving data they are too large by that factor. Edges of two-dimensional densities are wrong for an axis in other coordinates than the rest, those of histogramdd carry the label of the first axis. Labels of bins are not compared with those of the data; bins of equal values depend on the coordinates; histogram_bin_edges fails if edges are given.", "quantifier": "all data, bins and weights", "why_tests_cant": "All data; the wrong factors are 1 at redshift 0.", "anchors": ["swiftsimio/_array_functions.py: histogram, histogram2d, histogramdd, histogram_bin_edges"]}
{"id": "C70", "title": "Power spectrum of one deposition", "statement": "For a cubic deposition each bin holds the number of Fourier modes whose wavenumbers lie in it, their mean wavenumber (between the edges) and their mean power: the transform of the correlation of the relative deviations times the cube of the first side of the box, less the shot noise; bins without modes give wavenumber 0. Without edges, bins are half-integer multiples of the smallest wavenumber. The power of an even distribution is zero, that of one field is never negative; it does not change with the unit of mass, under periodic shifts, exchanged axes or exchanged fields; summed over all modes it is the mean product of the deviations (Parseval). Other shapes are refused. The second and third side of the box are only used for the noise.", "quantifier": "all grids, fields, boxes, foldings and edges", "why_tests_cant": "Exact identities over all fields and grid sizes; non-cubic boxes are never tried.", "anchors": ["swiftsimio/visualisation/power_spectrum.py: deposition_to_power_spectrum"]}
{"id": "C71", "title": "Folding keeps modes", "statement": "The power of a mode of a deposition of particles is that of the masses moved to their cells. Folding a deposition f times gives every (2^f)-th mode of a grid with 2^f times as many cells, with the same power and wavenumber, so that a bin of a folded spectrum holds the mean power of modes of the finer grid.", "quantifier": "all particles, grids and foldings", "why_tests_cant": "Tests compare a few foldings with tolerances.", "anchors": ["swiftsimio/visualisation/power_spectrum.py: render_to_deposit, deposition_to_power_spectrum"]}
{"id": "C72", "title": "Combining foldings", "statement": "In each bin the folding with most modes among those with a usable value (enough modes, wavenumber below the cutoff except for the last folding) gives power, wavenumber and tracker, the lowest folding if several have as many; if there is none power is 0, the tracker 1 and the wavenumber the centre of the bin. Different foldings of the two fields, a missing range, no depositions and any scheme but simple are refused; without a least number of modes several foldings fail. The result is labelled with the inverse of the label of a volume although it holds volumes: for a comoving box its physical values are wrong by the sixth power of the scale factor.", "quantifier": "all dictionaries of depositions, ranges and limits", "why_tests_cant": "All combinations of counts; labels of the result are not tested away from redshift 0.", "anchors": ["swiftsimio/visualisation/power_spectrum.py: folded_depositions_to_power_spectrum"]}
{"id": "C73", "title": "Structure of subset files", "statement": "A file whose names are used once, whose links have targets, whose cell tables are there and whose datasets are inside the particle groups or skipped can be written. In every file that is written, each dataset with none of the writer's words in its path is at the same path with the same attributes and the rows of its group's mask; links of the top level have the same targets; other groups are copied with everything below them; Header and Parameters keep their attributes apart from the file type and the numbers in the file; cell tables hold the mask's counts and offsets at the datasets that name the type, centres and extents in the mask's cell order. There is no other data and no other link.", "quantifier": "all file trees and masks", "why_tests_cant": "Tests use a few snapshots and compare particle fields only.", "anchors": ["swiftsimio/subset_writer.py: _find_datasets, _find_links, _update_metadata_counts, _write_metadata, _write_datasubset, _connect_links, write_subset"]}
{"id": "C74", "title": "What subset files do not preserve", "statement": "Links below the top level are replaced by copies of the data; groups of particle types lose their attributes; a dataset is left out when a link's name, Cells, SubgridScheme or PartTypeNames occurs anywhere in its path; a file with another dataset outside the particle groups cannot be written (unless the counts are shared). A file without cells, or whose group of cells misses the counts, the offsets, the centres or the metadata, gives KeyError; a dataset to be copied gives IndexError if it has no rows, KeyError if the text PartType is in its path and the first name of the path is not one of the particle types, and RuntimeError if the mask has no entry for it.", "quantifier": "all file trees and masks", "why_tests_cant": "No test file has such names, links or groups.", "anchors": ["swiftsimio/subset_writer.py: _find_links, _write_datasubset, _write_metadata"]}
{"id": "C75", "title": "Statistics files are read as they were laid out", "statement": "For a file of remarks, column descriptions with different names, a line of names set apart by two or more blanks, and data, SWIFTStatisticsFile succeeds exactly with one attribute per column: its name is the entry of the line of names (lower case, blanks as underscores, no full stops), its unit and label are those of the description and its values those of the column. A file without data is refused. A line of names after a single blank, repeated column names and files without header are read wrongly.", "quantifier": "all files of that layout, all numbers of columns and rows, any parser of units and numbers", "why_tests_cant": "There is no test of statistics files; tests would fix one file.", "anchors": ["swiftsimio/statistics.py: SWIFTStatisticsFile._read_file, SWIFTStatisticsFile._process_raw_lines"]}
{"id": "C76", "title": "Columns of text become arrays", "statement": "list_of_strings_to_arrays succeeds exactly when each item can be read as the kind of number its column's first item shows (floating point when it has a full stop or an e, else integer); it returns one array per item of the first line with one entry per line, zero where the line has no such item. Hence a trailing blank line is a row of zeros, and a column starting with an integer refuses fractions, nan and 1E5.", "quantifier": "all lists of lines", "why_tests_cant": "The behaviour depends on the first line and on ragged lines; the existing test uses one well-formed table.", "anchors": ["swiftsimio/accelerated.py: list_of_strings_to_arrays"]}
{"id": "C77", "title": "Header values reach the metadata object", "statement": "A metadata object is built exactly for files with a header whose fields have the expected kinds, whose groups are there and whose cosmology can be converted. Then each attribute has the value of its header field: time with the unit of time under both names, redshift, dimension, scale factor (1 when missing), the box size as a comoving length with exponent 1, counts, masses by type (zeros when missing), texts (empty when missing), date, number of particles of each type (0 beyond the end), radiation fields, gas gamma, the dictionaries of the groups, the cosmology of cosmological runs. Counts stored as one number are read as 0.", "quantifier": "all files, all four kinds of metadata, any date parser and cosmology converter", "why_tests_cant": "The tests read a few example files, which have all fields; which fields may be missing or of another kind is never tried.", "anchors": ["swiftsimio/metadata/objects.py: get_metadata", "swiftsimio/metadata/objects.py: postprocess_header", "swiftsimio/metadata/objects.py: extract_cosmology", "swiftsimio/metadata/objects.py: MassTable", "swiftsimio/metadata/objects.py: unpack_subhalo_number", "swiftsimio/metadata/objects.py: _metadata_discriminator", "swiftsimio/metadata/metadata/metadata_fields.py: generate_units_header_unpack_single_float"]}
{"id": "C78", "title": "Each group has an object with its fields", "statement": "The groups of a file are those of the types with a nonzero entry in CanHaveTypes (or the counts), the LOS_ groups in the order of their texts, Groups, or the subhalo types. Each has an object <name>_properties with the paths and snake case names of its members that are no groups of their own, its formatted named columns and, for lines of sight, its attributes; the later of two groups of one name counts, and there are no other such objects. Files with a type without a group, with a ninth type or without counts are refused; nested groups that are not listed are taken for fields.", "quantifier": "all files and kinds of metadata", "why_tests_cant": "Example files have consistent headers and no nested groups.", "anchors": ["swiftsimio/metadata/objects.py: load_groups", "swiftsimio/metadata/objects.py: present_groups", "swiftsimio/metadata/objects.py: present_group_names", "swiftsimio/metadata/objects.py: SWIFTGroupMetadata.load_field_names", "swiftsimio/metadata/objects.py: load_named_columns", "swiftsimio/metadata/objects.py: load_group_attributes"]}
{"id": "C79", "title": "Mapping tables between named columns", "statement": "For each member of SubgridScheme whose name ends with Mapping and can be split as letters, To, letters, Mapping there is a table, and no other; the split has the longest first part. The columns are those of the first name that starts with the part (Dust for Grain); each value is found under <x>_to_<y> unless a later pair has the same name in lower case. Reading fails exactly when the columns or a value are missing. Hence names with To inside are split there and the file is refused.", "quantifier": "all keys, columns and tables", "why_tests_cant": "The greedy pattern only matters for names that no test file has.", "anchors": ["swiftsimio/metadata/objects.py: get_mapping_metadata", "swiftsimio/metadata/objects.py: get_named_column_metadata", "swiftsimio/metadata/objects.py: MappingTable"]}
{"id": "C80", "title": "Attributes of lines of sight", "statement": "A name of a line-of-sight object stands for the last group attribute of that snake case name, or else for the last field of it; other kinds of groups have fields only. Reading an attribute gives its numbers, without axes exactly when there is one; xpos, ypos and zpos are comoving lengths with exponent 1, everything else is dimensionless, physical and has exponent 0. A field with the name of an attribute cannot be read.", "quantifier": "all groups, fields and attributes", "why_tests_cant": "Tests use one file without colliding names.", "anchors": ["swiftsimio/metadata/objects.py: get_group_attribute_units", "swiftsimio/metadata/objects.py: get_group_attribute_comoving", "swiftsimio/metadata/objects.py: get_group_attribute_cosmo_factor", "swiftsimio/reader.py: _generate_group_attr_getter", "swiftsimio/reader.py: _generate_datasets"]}
{"id": "C81", "title": "Cosmology objects", "statement": "The cosmology made for astropy takes H0, Omega_m, Omega_lambda, Omega_b, w_0 and w_a from the first items of their fields, and is refused when one is missing. The temperature is that of the file unless it is missing or 0; then it is not negative and gives the photon density Omega_r exactly. N_eff is 3.04 when it is missing. A snapshot of a cosmological run can be read only if its cosmology can be converted.", "quantifier": "all cosmology dictionaries, constants and units", "why_tests_cant": "The inversion of the temperature and the fallbacks hold for all values; tests compare one file.", "anchors": ["swiftsimio/conversions.py: swift_cosmology_to_astropy", "swiftsimio/metadata/objects.py: postprocess_header"]}
{"id": "C82", "title": "Neutrino masses", "statement": "Each mass is given as often as its degeneracy says, in order, followed by the massless ones; degeneracies have to be whole and their sum with the massless number, without fractions, has to be N_eff without its fraction. With as many masses as degeneracies and no negative number there is one mass for each whole effective neutrino. With fewer masses, or with a negative degeneracy, the number is wrong and nothing is refused; without N_ur three massless ones are assumed and files with massive ones are refused.", "quantifier": "all lists of masses and degeneracies, all effective numbers", "why_tests_cant": "Lists of different lengths and negative or fractional numbers are not in test files.", "anchors": ["swiftsimio/conversions.py: swift_neutrinos_to_astropy"]}
{"id": "C83", "title": "A kernel holds one particle", "statement": "The integral over the plane of the kernel of the projection backends exceeds one by 8 to 9 parts in ten million, for every radius (the constant was computed with 3.14159); over space the kernel of slices and volumes integrates to one within 1e-20. Through the particle the line integral of the latter is the former within 1e-6.", "quantifier": "all kernel radii", "why_tests_cant": "Tests compare images with a tolerance of percents; the integral needs a proof.", "anchors": ["swiftsimio/visualisation/projection_backends/kernels.py: kernel_single_precision", "swiftsimio/visualisation/projection_backends/kernels.py: kernel_double_precision", "swiftsimio/visualisation/slice_backends/sph.py: kernel"]}
{"id": "C84", "title": "Radius and shape of the kernels", "statement": "The radius of the kernels is such that the smoothing length is twice the standard deviation along an axis, within 2e-6, in the plane and in space; so the same particle is two percent wider in volumes than in projections. The kernels fall strictly up to the radius, are zero from there on, smooth (also at the radius), flat at the particle, and scale with distance and radius.", "quantifier": "all smoothing lengths, radii and distances", "why_tests_cant": "Monotonicity, smoothness and moments are statements about all distances.", "anchors": ["swiftsimio/visualisation/projection_backends/kernels.py: kernel_single_precision", "swiftsimio/visualisation/slice_backends/sph.py: kernel"]}
{"id": "C85", "title": "HSV maps, image maps and the kept grid", "statement": "Maps in HSV space give, at a grid point, matplotlib's colour of the weighted means of hue, saturation and value (each divided by 1.0001) with the mean alpha, axes exchanged as in the RGB maps; hues are averaged as numbers, so halfway between red and magenta lies green. In an image map the first value chooses the row from the top and the second the column. The grid is made at the first call and kept: colours or coordinates changed afterwards have no effect.", "quantifier": "all sizes, colours, coordinates, images, conversions between RGB and HSV, sequences of changes and calls", "why_tests_cant": "Tests look at a few colours of maps that never change.", "anchors": ["swiftsimio/visualisation/tools/cmaps.py: LinearSegmentedCmap2DHSV.generate_color_map_grid", "swiftsimio/visualisation/tools/cmaps.py: ImageCmap2D.generate_color_map_grid", "swiftsimio/visualisation/tools/cmaps.py: Cmap2D.color_map_grid"]}
{"id": "C86", "title": "What the constructors make of their arguments", "statement": "The factor of a new array is the one asked for by cosmo_factor, scale_factor and scale_exponent; they are refused if incomplete or contradictory. Numbers get the frame, convertibility, unit and compression that are passed; a cosmo_array is converted to the frame that is asked for and keeps its meaning, its own unit and factor (those that are passed are ignored). Everything constructed with validation has a frame and a convertibility that go together. A list of convertible arrays keeps the values of its elements without a requested frame; with comoving=False or a frame that no element has, the numbers are relabelled without conversion. Quantities made from quantities are relabelled, never converted. bypass_validation with scale_factor alone raises AttributeError; from_astropy and from_pint ignore valid_transform=False.", "quantifier": "all inputs, keyword arguments, units and real numbers", "why_tests_cant": "Tests construct a few arrays; the arguments interact in hundreds of ways.", "anchors": ["swiftsimio/objects.py: _parse_cosmo_factor_args", "swiftsimio/objects.py: cosmo_array.__new__", "swiftsimio/objects.py: cosmo_quantity.__new__", "swiftsimio/objects.py: cosmo_array.from_astropy", "swiftsimio/objects.py: cosmo_array.from_pint"]}
{"id": "C87", "title": "Conversions with units keep the worth of an array", "statement": "Whatever units, a successful to(units, comoving=...) gives the unit and the frame that were asked for, keeps all labels, and the physical values times the size of the unit are what they were. It succeeds exactly if the dimensions agree and the frame stays or the array is convertible with a known factor. to_physical, to_comoving and the conversions in place do the same; bare values are the numbers of the converted array. A conversion in place that fails keeps worth, frame and labels, but its unit may have been changed. Pickling keeps everything. An array is compatible with comoving (physical) ones if it is comoving (not comoving) or its factor is one.", "quantifier": "all systems of units, arrays, target units and frames", "why_tests_cant": "Tests convert between a few units in one frame.", "anchors": ["swiftsimio/objects.py: cosmo_array.to", "swiftsimio/objects.py: cosmo_array.to_physical", "swiftsimio/objects.py: cosmo_array.to_comoving", "swiftsimio/objects.py: cosmo_array.convert_to_comoving", "swiftsimio/objects.py: cosmo_array.convert_to_physical", "swiftsimio/objects.py: cosmo_array.to_value", "swiftsimio/objects.py: cosmo_array.__setstate__", "swiftsimio/objects.py: cosmo_array.compatible_with_comoving"]}
{"id": "C88", "title": "The texts about code, libraries and schemes", "statement": "code_info, compiler_info, library_info, hydro_info, viscosity_info and diffusion_info are exactly the texts put together from the attributes of the groups Code and HydroScheme of the file, stored as bytes; numbers are rounded to two places (the nearest hundredth, half to even), the dimension is an integer. They fail exactly if one of the attributes is missing or of another type; attributes stored as text strings are refused. partial_snapshot is true for each number of files above one.", "quantifier": "all metadata objects, attribute values, texts and rational numbers", "why_tests_cant": "Tests look at the texts of a few files and not at all roundings and types of attributes.", "anchors": ["swiftsimio/metadata/objects.py: SWIFTSnapshotMetadata.code_info", "swiftsimio/metadata/objects.py: SWIFTSnapshotMetadata.compiler_info", "swiftsimio/metadata/objects.py: SWIFTSnapshotMetadata.library_info", "swiftsimio/metadata/objects.py: SWIFTSnapshotMetadata.hydro_info", "swiftsimio/metadata/objects.py: SWIFTSnapshotMetadata.viscosity_info", "swiftsimio/metadata/objects.py: SWIFTSnapshotMetadata.diffusion_info", "swiftsimio/metadata/objects.py: SWIFTSnapshotMetadata.partial_snapshot"]}
{"id": "C89", "title": "What the program swiftsnap prints", "statement": "swiftsnap names the first file on its command line that is none of SWIFT's and exits with 1, printing nothing else. Otherwise it reads all files before it prints anything. With -r it prints exactly the redshifts, one line for each file in their order with four significant digits, and exits with 0, also if -a is given; with -a the scale factors. Without options it prints for every snapshot or line-of-sight file name, date, policies that are on, output type, number of particles of each type, compiler, code, state, cosmology and schemes, in this order. A catalogue of groups or haloes stops it with an AttributeError at the compiler.", "quantifier": "all lists of files, metadata and rational numbers", "why_tests_cant": "Tests do not run the program on many files, on odd values or on catalogues.", "anchors": ["swiftsimio/swiftsnap.py: swiftsnap", "swiftsimio/swiftsnap.py: decode", "swiftsimio/__init__.py: validate_file"]}
{"id": "C90", "title": "A mask's names, tables and attributes belong together", "statement": "For every snapshot and SOAP catalogue whose Cells group has the tables it needs and whose group names can be told apart, the mask object with its dictionaries and attributes found by name can be made, and for every history of calls (spatial, property by group name, index, indices, conversions, with failing calls caught) it raises the same exceptions and has the same masks and sizes under mask.<group> and mask.<group>_size as the numbered mask of properties C07-C19: each group of a snapshot its own one, all groups of a SOAP catalogue the shared one. Per-cell counts and offsets are stored under the same names. A property constraint on a group changes the rows of that group only in a snapshot and of all groups in a SOAP catalogue. Unknown names raise AttributeError, unknown groups and missing tables KeyError, files of other kinds NotImplementedError, parts of split snapshots InvalidSnapshot. With a SOAP catalogue that has bounding boxes of its cells in the file a mask can be made, but every region that does not cover the whole box fails with KeyError.", "quantifier": "all metadata, names, cell tables, paddings, histories of calls and data", "why_tests_cant": "Tests use files with the usual names, and do not try catalogues with bounding boxes or every history of calls on every group.", "anchors": ["swiftsimio/masks.py: SWIFTMask.__init__", "swiftsimio/masks.py: SWIFTMask.group_mapping", "swiftsimio/masks.py: SWIFTMask.group_size_mapping", "swiftsimio/masks.py: SWIFTMask.update_list", "swiftsimio/masks.py: SWIFTMask.__getattr__", "swiftsimio/masks.py: SWIFTMask._generate_empty_masks", "swiftsimio/masks.py: SWIFTMask._unpack_cell_metadata", "swiftsimio/masks.py: SWIFTMask._generate_cell_mask", "swiftsimio/masks.py: SWIFTMask._update_range_masks", "swiftsimio/masks.py: SWIFTMask._sanitize_region", "swiftsimio/masks.py: SWIFTMask.constrain_spatial", "swiftsimio/masks.py: SWIFTMask.constrain_property", "swiftsimio/masks.py: SWIFTMask.constrain_indices", "swiftsimio/masks.py: SWIFTMask.constrain_index", "swiftsimio/masks.py: SWIFTMask.convert_masks_to_ranges", "swiftsimio/masks.py: SWIFTMask.convert_masks_to_bool", "swiftsimio/masks.py: SWIFTMask._get_masked_counts_offsets"]}
{"id": "C91", "title": "The pixels of the reference and the subsampled projections", "statement": "Every pixel of the reference projection is the sum over all periodic copies of the kernel at its centre; particles with kernels narrower than two pixels leave no trace, and if there are none of them the image is that of the fast projection. Every pixel of the subsampled projections is the sum over all periodic copies of the mean of the kernel over evenly spaced points (twice the least number that gives the asked number of evaluations), for kernels up to a quarter of a pixel of the whole mass or of the pieces of a cut kernel, which add up to one. The mass of such tiny particles is conserved without periodicity if their kernels are in the image, and in a periodic box of the size of the image if they are not within a kernel radius of its upper edges. Just below an upper edge the mass is counted once in the last pixel and again in part on the other side, because the distance to the upper side of a pixel is taken as one minus the distance to the lower side.", "quantifier": "all resolutions, box sizes, sampling numbers, particles and pixels", "why_tests_cant": "Tests compare images of a few random particles loosely and do not place tiny kernels on the edges of pixels and boxes.", "anchors": ["swiftsimio/visualisation/projection_backends/reference.py: scatter", "swiftsimio/visualisation/projection_backends/subsampled.py: scatter", "swiftsimio/visualisation/projection_backends/subsampled_extreme.py: scatter"]}
{"id": "C92", "title": "Images of voxel grids", "statement": "Every pixel of render_voxels_to_array is the sum over the column of voxels of the normal distribution around the centre, with rows and columns exchanged; it does not depend on the order along the line of sight, is positive, and greatest where every voxel has the value of the centre. visualise_render gives as many images as the shortest of its lists has entries; pixel (i, j) of image k is the colour at k / (n - 1) of the colour map times the light of column (i, j), scaled to the limits of the norm: its own, or if unset those of the first image for which the same object is used. With fresh norms the values are between 0 and 1; with one norm shared and unset they are not. 'lighten' is the greatest and 'add' the sum of all images in every channel. Grids that are not square are written outside of the image, a width of zero fails, a width that is not a float or a list is refused. The plotted options are the same function at 100 points, none of which is at the centre.", "quantifier": "all voxel grids, centres, widths, norms and colour maps", "why_tests_cant": "No test calls these functions.", "anchors": ["swiftsimio/visualisation/volume_render.py: render_voxels_to_array", "swiftsimio/visualisation/volume_render.py: visualise_render", "swiftsimio/visualisation/volume_render.py: visualise_render_options"]}
{"id": "C93", "title": "Every numpy ufunc on cosmo arrays", "statement": "For every ufunc, called or reduced, on any mix of cosmo arrays, numbers, False and lists, the label of the result, the labels named in warnings and the exception are those of a table with an outcome for every case; unknown ufuncs are key errors and a wrong number of arguments is a type error, so the method clip with both bounds never works. Arrays given as out (in-place operations) change only if the call succeeds, take the label of the result and lose their compression. If the numbers scale as the label says, the results and the arrays given as out stand for the function of the physical values, in whatever frames the arguments are; and only then. So add, subtract, maximum, minimum, remainder, fmod, hypot, copysign, negative, absolute, multiply, divide and sign are right for all arrays, and floor, ceil, trunc, modf, heaviside, _ones_like, the quotient of divmod, floor_divide of arrays that scale differently, exp, log and rint are not. Reductions by multiply and divide along the columns are right if axis=0 is given; without axis the label counts all elements although numpy reduces the columns only. The starting value of a sum is added whatever its exponent.", "quantifier": "all ufuncs, calls and reductions, arguments in all frames and with all labels, and all functions of numbers", "why_tests_cant": "Tests apply the ufuncs to a few comoving arrays of one scale factor and compare labels; they do not compare with the physical values, and do not reduce arrays of several dimensions without axis.", "anchors": ["swiftsimio/objects.py: cosmo_array.__array_ufunc__", "swiftsimio/objects.py: _cosmo_factor_ufunc_registry", "swiftsimio/_array_functions.py: _preserve_cosmo_factor", "swiftsimio/_array_functions.py: __binary_preserve_cosmo_factor", "swiftsimio/_array_functions.py: _multiply_cosmo_factor", "swiftsimio/_array_functions.py: _divide_cosmo_factor", "swiftsimio/_array_functions.py: _power_cosmo_factor", "swiftsimio/_array_functions.py: _passthrough_cosmo_factor", "swiftsimio/_array_functions.py: _return_without_cosmo_factor", "swiftsimio/_array_functions.py: _arctan2_cosmo_factor", "swiftsimio/_array_functions.py: _comparison_cosmo_factor", "swiftsimio/_array_functions.py: _prepare_array_func_args"]}
{"id": "C94", "title": "How the arguments of wrapped functions are brought to one frame", "statement": "For all positional and keyword arguments (cosmo arrays in any state, numbers, plain arrays): if no array has a frame, or all have the same, arguments are passed as they are and the result gets that frame; if only some have one it is a value error; a mix of comoving and physical arrays is brought to comoving numbers, the first array that cannot be deciding the error, unless an array that must not be converted is among the positional ones or physical numbers are preferred. In that case the mix is passed on as it is, comoving numbers included, and the result is called physical. In all other cases every argument stands for the same physical values as before and is in the frame of the result. Arrays that must not be converted are not looked for among the keywords, so that such calls fail. The result may be converted if every argument may, and has the compression all arguments have in common. A wrapped function fails with the error of the preparation, then of the label, then of numpy, whichever comes first.", "quantifier": "all lists of positional and keyword arguments in all states, both preferences, all label rules and functions", "why_tests_cant": "Tests mix one comoving and one physical array; the number of arguments, of states and of orders in which they can fail is unbounded.", "anchors": ["swiftsimio/_array_functions.py: _prepare_array_func_args", "swiftsimio/_array_functions.py: _return_helper", "swiftsimio/_array_functions.py: _default_unary_wrapper", "swiftsimio/_array_functions.py: _default_binary_wrapper"]}
{"id": "C95", "title": "Which class, shape and attributes results have", "statement": "For every wrapped method and property of cosmo arrays and quantities and whatever unyt or numpy return (an object, a tuple, an error): errors are passed on; data and shape are never changed; indexing, take, reshape and round give a cosmo quantity for scalars and a cosmo array otherwise, with the attributes of the array, even when unyt returns an object of its own; squeeze does the same but takes the attributes from what numpy returned, an unknown frame if that was unyt's own; all other methods keep the class unyt returns and hand on the attributes, so that an array derived from a quantity (flatten, ravel, repeat) is a quantity with axes. Multiplying by a unit keeps the attributes. Results of ufuncs get the class for their shape and the computed attributes; the hook unyt calls does the same except for single results of the package with the wrong class and, among several, plain scalars, which it turns into quantities, and objects without shape, for which it fails. numpy's functions use the package's own version, else unyt's, else numpy's, when only arrays of the package and plain ones take part; with an array of unyt among the arguments no version of the package is ever used. The text of an array tells its frame.", "quantifier": "all methods, all results of unyt and numpy, all shapes, all attributes, all lists of argument classes, all tables of functions", "why_tests_cant": "Tests check the methods on one array of shape (2,2) and one quantity; results of other classes, tuples and mixes of classes are not enumerable.", "anchors": ["swiftsimio/_array_functions.py: _copy_cosmo_array_attributes_if_present", "swiftsimio/_array_functions.py: _propagate_cosmo_array_attributes_to_result", "swiftsimio/_array_functions.py: _promote_unyt_to_cosmo", "swiftsimio/_array_functions.py: _ensure_array_or_quantity_matches_shape", "swiftsimio/_array_functions.py: _ensure_result_is_cosmo_array_or_quantity", "swiftsimio/objects.py: cosmo_array.__array_finalize__", "swiftsimio/objects.py: cosmo_array.__unyt_ufunc_finalize__", "swiftsimio/objects.py: cosmo_array.__array_ufunc__", "swiftsimio/objects.py: cosmo_array.__array_function__", "swiftsimio/objects.py: cosmo_array.__mul__", "swiftsimio/objects.py: cosmo_array.__str__"]}
{"id": "C96", "title": "Operators and comparisons of scale-factor labels", "statement": "For all labels (with or without exponent and scale factor) and all other operands: sums and differences are defined for identical labels only, products and quotients for labels with the same scale factor that both have or both lack an exponent; all other pairs of labels raise InvalidScaleFactor and everything that is no label a value error. A reflected operator on two labels gives what the operator of the other label gives; the reflected division of something else raises a type error for numbers and an attribute error for what has no division. The four comparisons compare the values a**e, raise a type error when a value is missing, and are a total preorder on labels with values, in which at scale factors below one the larger exponent is the smaller label. They do not go with equality: labels with the same value at different scale factors are neither smaller nor equal, and labels closer than the tolerance are both smaller and equal. The two texts of a label determine the texts of its exponent and scale factor.", "quantifier": "all labels, all operands, all scale factors and real exponents, all texts of expressions", "why_tests_cant": "Exponents and scale factors are real numbers; tests compare a few labels at one scale factor.", "anchors": ["swiftsimio/objects.py: cosmo_factor.__add__", "swiftsimio/objects.py: cosmo_factor.__sub__", "swiftsimio/objects.py: cosmo_factor.__mul__", "swiftsimio/objects.py: cosmo_factor.__truediv__", "swiftsimio/objects.py: cosmo_factor.__radd__", "swiftsimio/objects.py: cosmo_factor.__rsub__", "swiftsimio/objects.py: cosmo_factor.__rmul__", "swiftsimio/objects.py: cosmo_factor.__rtruediv__", "swiftsimio/objects.py: cosmo_factor.__lt__", "swiftsimio/objects.py: cosmo_factor.__gt__", "swiftsimio/objects.py: cosmo_factor.__le__", "swiftsimio/objects.py: cosmo_factor.__ge__", "swiftsimio/objects.py: cosmo_factor.__ne__", "swiftsimio/objects.py: cosmo_factor.__str__", "swiftsimio/objects.py: cosmo_factor.__repr__"]}
{"id": "C97", "title": "Functions applied over several axes", "statement": "For arrays with units of every shape and every non-empty list of axes, apply_over_axes(sum) sums over each axis counted among the axes that the earlier sums have left (from the front or the end), keeps class and attributes, and raises an index error exactly if one of these does not exist. For strictly decreasing axes its numbers are those of numpy's own function, which sums over the axes named in any order. In general they are not: the axes [0, 1] of three sum over the first and the third, and the list of all axes in increasing order is refused for every array with more than one axis. One integer is a type error and an empty list an index error. Any function is called on the results in turn until a result has no units; a function that keeps the number of axes gives what numpy gives for axes not before the first.", "quantifier": "all shapes, all numbers, all lists of axes, all functions of an array and an axis", "why_tests_cant": "The shift of the axes appears only for lists that are not decreasing on arrays with three or more axes; tests use one or two axes.", "anchors": ["swiftsimio/_array_functions.py: apply_over_axes", "swiftsimio/_array_functions.py: _propagate_cosmo_array_attributes_to_result"]}
{"id": "C98", "title": "Functions with several results, sinc and savetxt", "statement": "For arrays with labels a**j and a**k in any coordinates: the parts of a least-squares solution (solution, residuals, rank, singular values) stand for those computed from physical values, with exponents k-j, 2k, none and j; so do the points of an interval and their distance when the labels agree, and labels that differ are refused; eigenvalues have the exponent of the matrix and eigenvectors are plain numbers. sinc works on the stored numbers: it gives the sinc of the physical values for arrays without scaling, and different results for one length in two coordinates. savetxt writes the stored numbers of every array, so a physical and a comoving array with different physical values can give the same file.", "quantifier": "all scale factors, exponents, numbers and mixtures of coordinates; all numpy functions whose parts scale as stated", "why_tests_cant": "Exponents and scale factors are real numbers; tests check that the attributes are present, not that every part has the right one.", "anchors": ["swiftsimio/_array_functions.py: linalg_lstsq", "swiftsimio/_array_functions.py: linalg_eig", "swiftsimio/_array_functions.py: linalg_eigh", "swiftsimio/_array_functions.py: linspace", "swiftsimio/_array_functions.py: sinc", "swiftsimio/_array_functions.py: savetxt"]}
{"id": "C99", "title": "Attributes and copies of masks", "statement": "A mask object finds what it has itself first; the name of a group, or of a group with _size, gives the mask or size stored for it (the shared one where there is one), with the dictionaries of names made at the first use and the same afterwards; every other name is an AttributeError, so hasattr is False. An object without its metadata recurses without end instead: copying a mask (copy, deepcopy) or loading a pickled one fails with a RecursionError for every mask and every recursion limit.", "quantifier": "all names, group names, states of the cached dictionaries, masks and recursion limits", "why_tests_cant": "Names and limits are unbounded; the failing copies need a statement about every limit.", "anchors": ["swiftsimio/masks.py: SWIFTMask.__getattr__", "swiftsimio/masks.py: SWIFTMask.group_mapping", "swiftsimio/masks.py: SWIFTMask.group_size_mapping", "swiftsimio/masks.py: SWIFTMask.__init__"]}
{"id": "C100", "title": "Constraints in physical or comoving coordinates", "statement": "A spatial constraint whose rows are given as any mixture of comoving and physical cosmo arrays, lists of cosmo quantities and None does to the mask, and raises, exactly what the constraint on the bare numbers they stand for does, whatever frame the box and the cell corners are in. A property constraint keeps a particle exactly if it was kept before and lower < value <= upper between physical values, whatever the frames of the field and the bounds. Rows and bounds of another scale factor or another scaling, and rows and bounds without a frame, are refused, and what is selected stays.", "quantifier": "all scale factors, exponents, frames, regions, cells, bounds, fields and mask states", "why_tests_cant": "Every combination of frames on six bounds, the box and the cell arrays, for all values and all states of the mask, is unbounded.", "anchors": ["swiftsimio/masks.py: SWIFTMask._sanitize_region", "swiftsimio/masks.py: SWIFTMask._generate_cell_mask", "swiftsimio/masks.py: SWIFTMask.constrain_spatial", "swiftsimio/masks.py: SWIFTMask.constrain_property"]}
{"id": "C101", "title": "A dataset keeps the selection it was loaded with", "statement": "Whatever is done with a mask after a dataset has been loaded with it (further constraints, conversions between the two forms, further loads, loads that are refused), what the dataset selects stays as it was; it is what the mask selected at its load. With the arrays in memory and shared, every method of the mask does what it does to the mask as a value. Arrays of ranges taken from the mask never change; arrays of booleans taken from it may.", "quantifier": "all snapshots, all programs of calls of the mask's methods, loads and reads of its attributes", "why_tests_cant": "Aliasing errors show only for particular orders of calls; the orders are unbounded.", "anchors": ["swiftsimio/masks.py: SWIFTMask._update_range_masks", "swiftsimio/masks.py: SWIFTMask.convert_masks_to_ranges", "swiftsimio/masks.py: SWIFTMask.convert_masks_to_bool", "swiftsimio/masks.py: SWIFTMask.constrain_property", "swiftsimio/masks.py: SWIFTMask.constrain_indices", "swiftsimio/reader.py: SWIFTDataset.__init__", "swiftsimio/reader.py: _generate_getter", "swiftsimio/reader.py: _generate_datasets"]}
{"id": "C102", "title": "Pictures of masked datasets", "statement": "A selection that holds every particle with a periodic copy within its kernel radius of the region (and, for slices, of the slice) gives the picture of all particles, with every backend, serial, parallel or on the GPU, and with every front end, rotation, depth and frame. The selection of the particles inside the region alone is not enough: particles beside it are missing.", "quantifier": "all particles, selections, regions, boxes, rotations, resolutions, thread counts and orders", "why_tests_cant": "Which particles may be left out depends on every position and smoothing length; images are unbounded in number.", "anchors": ["swiftsimio/visualisation/projection_backends/fast.py: scatter", "swiftsimio/visualisation/projection_backends/histogram.py: scatter", "swiftsimio/visualisation/projection_backends/renormalised.py: scatter", "swiftsimio/visualisation/projection_backends/reference.py: scatter", "swiftsimio/visualisation/projection_backends/subsampled.py: scatter", "swiftsimio/visualisation/projection_backends/subsampled_extreme.py: scatter", "swiftsimio/visualisation/projection_backends/gpu.py: scatter", "swiftsimio/visualisation/slice_backends/sph.py: slice_scatter", "swiftsimio/visualisation/volume_render_backends/scatter.py: scatter", "swiftsimio/visualisation/projection.py: project_pixel_grid", "swiftsimio/visualisation/slice.py: slice_pixel_grid", "swiftsimio/visualisation/volume_render.py: render_voxel_grid", "swiftsimio/visualisation/_vistools.py: _get_region_info", "swiftsimio/visualisation/_vistools.py: _get_rotated_and_wrapped_coordinates"]}
{"id": "C103", "title": "What pictures are made of", "statement": "A picture is made of the particles with the coordinates of the group, the weights of the named field (a path of attributes, or ones when no name is given) and the smoothing lengths of the scheme of the backend: smoothing_lengths or smoothing_length; for nearest neighbours the edge of a cube of the volume, given or mass over density, else as for SPH; none for histograms, whose picture does not depend on the uninitialised lengths though the masses must exist. Backends are chosen by name, unknown names are KeyErrors, and the parallel table agrees with the serial one. A missing field is an AttributeError. The gas functions are the functions on the gas group.", "quantifier": "all datasets, field names, backends, regions, masks, rotations, schedules and contents of uninitialised memory", "why_tests_cant": "Fields, names, backends and their combinations are unbounded; uninitialised memory differs from run to run.", "anchors": ["swiftsimio/visualisation/_vistools.py: _get_projection_field", "swiftsimio/visualisation/smoothing_length/sph.py: get_hsml", "swiftsimio/visualisation/smoothing_length/nearest_neighbours.py: get_hsml", "swiftsimio/visualisation/projection.py: project_pixel_grid", "swiftsimio/visualisation/projection.py: project_gas", "swiftsimio/visualisation/slice.py: slice_pixel_grid", "swiftsimio/visualisation/slice.py: slice_gas", "swiftsimio/visualisation/volume_render.py: render_voxel_grid", "swiftsimio/visualisation/volume_render.py: render_gas"]}
{"id": "C104", "title": "Pictures of datasets loaded with a mask", "statement": "The picture made from a dataset loaded with a mask is the picture made from the whole dataset when the mask keeps, once, every particle whose kernel reaches the region: for projections with every backend (histograms need only the particles of the region), SPH slices and volumes, in any state the user brought the mask into. A spatial constraint on a region that holds that of the picture widened by more than the largest kernel radius is such a mask. A spatial constraint on just the region of the picture is not.", "quantifier": "all files, fields, storage layouts on this machine, mask histories, particles, regions, backends, schedules", "why_tests_cant": "It relates cells, ranges, reads and kernels for every file and region; tests compare a few pictures.", "anchors": ["swiftsimio/masks.py: constrain_spatial", "swiftsimio/masks.py: convert_masks_to_ranges", "swiftsimio/reader.py: _generate_getter", "swiftsimio/accelerated.py: read_ranges_from_file", "swiftsimio/visualisation/projection.py: project_pixel_grid", "swiftsimio/visualisation/slice.py: slice_pixel_grid", "swiftsimio/visualisation/volume_render.py: render_voxel_grid", "swiftsimio/visualisation/_vistools.py: _get_projection_field", "swiftsimio/visualisation/smoothing_length/sph.py: get_hsml"]}
{"id": "C105", "title": "Byte orders of arrays that are read", "statement": "Converting an array to the byte order of the machine leaves every value what it was (numbers, complex numbers, texts, structures of fields with orders of their own and with gaps) and gives a native type; native arrays are not touched. Reading a field with a mask gives a native array with the values of the selected rows; without a mask the order of the file is kept. Two exceptions: fields that are structures with fields of both orders come out wrong, and with numba chunked datasets of the other order cannot be read with a mask.", "quantifier": "all types, machines, arrays, masks, storage layouts", "why_tests_cant": "Tests convert a few arrays of small types and compare values; nested structures and chunked files of the other order are never read.", "anchors": ["swiftsimio/accelerated.py: to_native_byteorder_inplace", "swiftsimio/accelerated.py: read_ranges_from_file_unchunked", "swiftsimio/accelerated.py: read_ranges_from_file_chunked", "swiftsimio/accelerated.py: read_ranges_from_hdfstream", "swiftsimio/accelerated.py: extract_ranges_from_chunks", "swiftsimio/reader.py: _generate_getter"]}
{"id": "C106", "title": "What the attributes of a dataset make of its array", "statement": "The array of a field has the numbers that were read, the unit that is the product of the stored powers of the units of the file, the stored power of the scale factor, the stored frame and permission to convert, and texts about its meaning, its selection and its compression that follow from the attributes, with the documented defaults for attributes that are missing. A missing unit exponent, dataset or selection gives None; comoving fields that may not be converted and selections stored as bytes are refused with an exception. The label depends on whether a mask was used, nothing else does.", "quantifier": "all attributes, unit systems, scale factors, fields, columns, with and without masks", "why_tests_cant": "Files of tests come from a few codes and versions; missing, conflicting and differently stored attributes do not occur in them.", "anchors": ["swiftsimio/metadata/field/attr_reader.py: load_field_units", "swiftsimio/metadata/field/attr_reader.py: load_field_description", "swiftsimio/metadata/field/attr_reader.py: load_field_compression", "swiftsimio/metadata/field/attr_reader.py: load_field_cosmo_factor", "swiftsimio/metadata/field/attr_reader.py: load_field_physical", "swiftsimio/metadata/field/attr_reader.py: load_field_valid_transform", "swiftsimio/reader.py: _generate_getter", "swiftsimio/objects.py: cosmo_array.__new__"]}
{"id": "C107", "title": "A file of the writer can be read again", "statement": "A file that the snapshot writer has written can be opened as a snapshot, with the scale factor, box, dimension, masses and numbers of particles of the writer. It has a group for exactly the types of particles that were given something, with exactly the required fields under their names, and loading a field gives the array that was given to the writer: the same physical values in cgs units (unless the exponent of its label was 0), dimensions and labels; the IDs are all different. The conversion factors stored with a dataset are those of its numbers. Entries of an extra header win over those of the writer; if they leave eight entries alone and can be read this changes nothing else, otherwise the file can become unreadable or lose its particles. It has no group Cells, so that no mask can be made for it.", "quantifier": "all histories of arrays, assignments and writers, all extra headers, types and fields", "why_tests_cant": "Tests write and read a few arrays of one or two types with one unit system; which headers, histories and labels survive the round trip depends on the combination of both programs.", "anchors": ["swiftsimio/snapshot_writer.py: SWIFTSnapshotWriter.write", "swiftsimio/snapshot_writer.py: SWIFTSnapshotWriter._write_metadata", "swiftsimio/snapshot_writer.py: SWIFTSnapshotWriter._write_units", "swiftsimio/snapshot_writer.py: __SWIFTWriterParticleDataset.write_particle_group", "swiftsimio/snapshot_writer.py: __SWIFTWriterParticleDataset.get_attributes", "swiftsimio/metadata/objects.py: metadata_discriminator", "swiftsimio/metadata/objects.py: SWIFTMetadata.load_groups", "swiftsimio/reader.py: _generate_datasets", "swiftsimio/metadata/writer/required_fields.py: gas", "swiftsimio/masks.py: SWIFTMask.__init__, _unpack_cell_metadata"]}
{"id": "C108", "title": "What can be assigned to the fields of a writer", "statement": "A field of the snapshot writer other than the IDs accepts a value exactly if it is a cosmo array with the dimensions of what the field measures (lengths, velocities, masses, specific energies), whose label has the scale factor of the writer and that is comoving or can be made so; the array is then converted in place to the units of the writer and to comoving coordinates with the same physical values, and nothing else changes. Otherwise the error says why and the writers stay as they are. IDs are accepted exactly if they are a list of different positive numbers with a label without effect; their units are not looked at. The written datasets carry the exponents and the unit of what their fields measure. Smoothing lengths can be generated exactly for gas and stars with coordinates in boxes of equal sides with a fitting label, and are twice the mean distance of the particles.", "quantifier": "all states of memory and writers, all types, names and values, all histories without changes in place", "why_tests_cant": "Tests assign a few arrays that fit; the conditions combine labels, dimensions, coordinates and the order of the checks, and what a failed assignment leaves behind is not looked at.", "anchors": ["swiftsimio/snapshot_writer.py: generate_setter", "swiftsimio/snapshot_writer.py: generate_dataset", "swiftsimio/snapshot_writer.py: __SWIFTWriterParticleDataset.generate_smoothing_lengths", "swiftsimio/snapshot_writer.py: SWIFTSnapshotWriter.__init__", "swiftsimio/metadata/writer/required_fields.py: gas"]}
{"id": "C109", "title": "The units of a file", "statement": "The units of a file are the five numbers of its group Units, each rounded to five figures in a nearest base unit; they are read exactly if the five attributes are there, no others are, and each is a list that starts with a number, and otherwise the error says which of these fails. A field written by the snapshot writer is read back with its values times the ratio of the unit that is read to the unit it was written in; this ratio is one if five figures are enough for the units of the writer. With the default units of the writer masses, lengths and positions come back as they were, and velocities and energies come back too large by two and four parts in a million.", "quantifier": "all attributes, all sizes of the astronomical units, all unit systems of positive units, all histories of writers without changes in place", "why_tests_cant": "The test suite compares arrays that are read back with a tolerance larger than the error, and tries one unit system.", "anchors": ["swiftsimio/metadata/objects.py: SWIFTUnits.get_unit_dictionary", "swiftsimio/metadata/unit/unit_types.py: find_nearest_base_unit", "swiftsimio/metadata/writer/unit_systems.py: cosmo_units", "swiftsimio/snapshot_writer.py: SWIFTSnapshotWriter._write_units"]}
{"id": "C110", "title": "Subset files are opened like their originals", "statement": "If a file can be opened and a subset of it is written, the subset can be opened as the same kind of file. Its metadata object has the same attributes in the same order, and all of them but the header, the type of file and the numbers of particles or subhalos have the same values, among them the lists of fields, the named columns, the cosmology and the units. The type of file becomes that of a subset; the number of every particle type is that of the mask, and zero if it was zero; the number of subhalos is that of the mask. The number of groups of a FOF catalogue is not updated, and without CanHaveTypes in the header a type of which nothing is selected is gone.", "quantifier": "all files that can be opened and written, with names used once, whose metadata groups have none of the words of the writer in their names and whose groups of particles have at least one dataset in each member; all masks", "why_tests_cant": "Tests write subsets of a few snapshots and compare some fields; here every attribute of the metadata object is compared, for every file and mask.", "anchors": ["swiftsimio/subset_writer.py: write_subset", "swiftsimio/subset_writer.py: write_metadata", "swiftsimio/metadata/objects.py: metadata_discriminator", "swiftsimio/metadata/objects.py: SWIFTMetadata.postprocess_header", "swiftsimio/metadata/objects.py: SWIFTMetadata.load_groups"]}
{"id": "C111", "title": "Compiled loops write inside their arrays, whatever rounding does", "statement": "Every element of the image, slice or volume that the loops of the projection, slice and volume-rendering backends write to exists, whatever the arithmetic operations return: with rounding in any precision, with overflow and with values that are not numbers. With exact arithmetic the loops write what the loops over real numbers write that the other visualisation properties are about.", "quantifier": "all arithmetics (any carrier, any operations, any conversion to integers); all resolutions, box sizes, particles, threads", "why_tests_cant": "An element outside of the array is written only if rounding or an unusual value leads there, numba does not check bounds, and tests compare images of ordinary particles.", "anchors": ["swiftsimio/visualisation/projection_backends/fast.py: scatter", "swiftsimio/visualisation/projection_backends/histogram.py: scatter", "swiftsimio/visualisation/projection_backends/renormalised.py: scatter", "swiftsimio/visualisation/projection_backends/reference.py: scatter", "swiftsimio/visualisation/projection_backends/subsampled.py: scatter", "swiftsimio/visualisation/projection_backends/gpu.py: scatter_gpu", "swiftsimio/visualisation/slice_backends/sph.py: slice_scatter", "swiftsimio/visualisation/volume_render_backends/scatter.py: scatter", "swiftsimio/visualisation/volume_render_backends/scatter.py: scatter_limited_z"]}
{"id": "C112", "title": "Indices in floating point: deposition, histograms and colour maps", "statement": "With numbers rounded to the nearest of 53 bits, the deposition writes to an existing cell if and only if the scaled position is below one, which holds for every position from zero to within four units in the last place of the edge of the folded box; every particle of the unit square is counted in one existing pixel of a histogram; every finite value is looked up inside of the colour map. In double precision there are particles inside of the box, particles just below zero and values that are not numbers for which the index is outside of the array, although nothing checks it.", "quantifier": "all positions, box sizes and foldings, grids of less than 2^24 cells a side; the counterexamples are exact double-precision computations", "why_tests_cant": "One position in about 2^53 is affected; random positions never hit it, and the memory behind the array is overwritten without an error.", "anchors": ["swiftsimio/visualisation/power_spectrum.py: deposit", "swiftsimio/visualisation/projection_backends/histogram.py: scatter", "swiftsimio/visualisation/tools/cmaps.py: apply_color_map"]}
{"id": "C113", "title": "Spatial masks with rounded numbers", "statement": "With positions, bounds and boxes that are numbers of 53 bits and operations that round to the nearest, the boxes of the cells contain the particles of the cells, with stored extents and with any padding; a cell is never kept because of rounding; every row is read whose position is strictly inside of the region, for regions with bounds in order inside of the box and for regions that go through the edge of the box with the lower bound in its upper half. For regions that go through the edge with the lower bound in the lower half, a particle inside of the region can be lost. With exact numbers the selection is that of the properties C07 to C12.", "quantifier": "all boxes, cells, regions and positions of 53 bits (unbounded exponents); the exact selection for all files and regions; the cell-by-cell form for all arithmetics", "why_tests_cant": "Particles within a unit in the last place of the bounds are affected only, which no test file has.", "anchors": ["swiftsimio/masks.py: SWIFTMask._unpack_cell_metadata", "swiftsimio/masks.py: SWIFTMask._generate_cell_mask", "swiftsimio/masks.py: SWIFTMask._update_range_masks"]}
{"id": "C114", "title": "Conversions between frames with rounded numbers", "statement": "With numbers rounded to the nearest of p bits (ties to even), converting to physical and back moves a value by at most two units of rounding, keeps the order of values and is exact if the factor is a power of two. However often an array is converted in place, its comoving values are the first ones or those after going there and back once, and its physical values are one of two: they do not drift. In double precision going there and back is not exact: three with the factor 0.1. Arrays of integers are not converted in place but raise TypeError and stay as they are. With exact numbers the conversions are those of C25.", "quantifier": "all values, factors, precisions of at least two bits, sequences of conversions", "why_tests_cant": "Tests convert some arrays once and compare with a tolerance; that repeated conversions do not drift is a statement on all numbers and all sequences.", "anchors": ["swiftsimio/objects.py: cosmo_array.convert_to_comoving", "swiftsimio/objects.py: cosmo_array.convert_to_physical", "swiftsimio/objects.py: cosmo_factor.a_factor"]}
{"id": "C115", "title": "Images that are added up with rounded numbers", "statement": "A pixel that is added up in the order of the particles differs from the exact sum by at most ((1+u)^k - 1) times the sum of the absolute values, for k additions with roundings of relative size u; with threads the exponent grows by the numbers of threads and workers, however numba distributes them. The total mass of a histogram and of a deposition is kept up to that bound. With one thread scatter_parallel makes exactly the image of scatter; with more it does not, and not even the same image twice. Larger values make no pixel smaller, no pixel is below a value it is made of, writes of zero change nothing, and weights times a power of two give exactly that many times the image, in every backend.", "quantifier": "all lists of particles, weights, resolutions, boxes, numbers of threads and distributions of their turns", "why_tests_cant": "Tests compare parallel with serial images with a tolerance on one set of particles; the bound and the exact statements are on all of them.", "anchors": ["swiftsimio/visualisation/projection_backends/fast.py: scatter, scatter_parallel", "swiftsimio/visualisation/projection_backends/histogram.py: scatter, scatter_parallel", "swiftsimio/visualisation/slice_backends/sph.py: slice_scatter_parallel", "swiftsimio/visualisation/volume_render_backends/scatter.py: scatter_parallel", "swiftsimio/visualisation/power_spectrum.py: deposit, deposit_parallel"]}
{"id": "C116", "title": "Rows that a dataset does not have", "statement": "Neither constrain_index nor constrain_indices nor the readers compare the rows asked for with the rows of the dataset. A contiguous dataset gives, for each range, Python's slice if that has as many rows as the range, its only row as many times as the range is long if it has one row, and TypeError otherwise: of rows in increasing order of which one is behind the end, the last row is repeated silently if the rows end with a run that starts at the last row, and TypeError is raised in all other cases. A chunked dataset with a range that ends behind it never gives a result that the code defines: with ranges in order that begin in or next to the last chunk, memory outside of the buffer is read. Negative rows give wrong rows in both layouts.", "quantifier": "all datasets, rows, ranges, chunk sizes and catalogue masks", "why_tests_cant": "Tests ask for rows that exist; which rows come back otherwise depends on the position of the ranges relative to the end of the dataset and to its chunks.", "anchors": ["swiftsimio/accelerated.py: read_ranges_from_file_unchunked", "swiftsimio/accelerated.py: read_ranges_from_file_chunked", "swiftsimio/masks.py: SWIFTMask.constrain_index", "swiftsimio/masks.py: SWIFTMask.constrain_indices"]}
{"id": "C117", "title": "Datasets with three or more axes, and subsets of columns", "statement": "Without a mask a dataset with any number of axes is read completely, and a named column of it is the corresponding part of every row. With a mask a dataset of three or more axes is read correctly only if all further axes have length one and the rows are read one by one (no range, chunk or pair of neighbouring chunks with two rows); otherwise TypeError is raised, so that any axis of length two or more makes masked reads impossible. write_subset copies datasets of one axis and of two axes of which the second is longer than one; of datasets of shape (n, 1) and of three or more axes it copies rows that are read one by one if all axes but the first and last have length one, and raises TypeError otherwise, although a masked read of a dataset of shape (n, 1) works. Reads of datasets with one or two axes are those of the row model, for all ranges and buffer sizes. A column that is not there gives IndexError, unless the mask of a contiguous dataset has no rows; datasets without rows give IndexError when they are to be copied.", "quantifier": "all shapes with axes of positive length, contents, chunk sizes, columns and ordered ranges inside of the dataset", "why_tests_cant": "SWIFT fields in the tests have one or two axes; whether h5py can broadcast depends on all lengths together.", "anchors": ["swiftsimio/reader.py: _generate_getter", "swiftsimio/accelerated.py: read_ranges_from_file_unchunked", "swiftsimio/accelerated.py: read_ranges_from_file_chunked", "swiftsimio/subset_writer.py: _write_datasubset"]}
{"id": "C118", "title": "Pixel indices of 32 bits", "statement": "The backends convert the pixel of a particle and the radius of its kernel to 32-bit integers, and what a number becomes that does not fit is not defined. If such numbers become the smallest or the largest 32-bit integer (as on x86 and ARM), then in every backend and any arithmetic a particle whose kernel and the image together have fewer than 2^31 pixels is drawn exactly as with unlimited integers, however far away it is. If the lowest bits are kept instead, particles far outside of the image are drawn in it. A kernel of more than 2^31 pixels is not drawn at all when the smallest integer is taken.", "quantifier": "all particles, resolutions, boxes, arithmetics (rounded or exact) and conversions that keep numbers that fit and send the others to the ends", "why_tests_cant": "Particles 2^22 image widths away do not occur in tests, and the outcome depends on the machine.", "anchors": ["swiftsimio/visualisation/projection_backends/fast.py: scatter", "swiftsimio/visualisation/projection_backends/histogram.py: scatter", "swiftsimio/visualisation/projection_backends/renormalised.py: scatter", "swiftsimio/visualisation/projection_backends/reference.py: scatter", "swiftsimio/visualisation/projection_backends/subsampled.py: scatter", "swiftsimio/visualisation/projection_backends/subsampled_extreme.py: scatter", "swiftsimio/visualisation/projection_backends/gpu.py: scatter_gpu", "swiftsimio/visualisation/slice_backends/sph.py: slice_scatter", "swiftsimio/visualisation/volume_render_backends/scatter.py: scatter", "swiftsimio/visualisation/volume_render_backends/scatter.py: scatter_limited_z"]}
{"id": "C119", "title": "Row indices of 64 bits and chunk indices of 32 bits", "statement": "ranges_from_array, expand_ranges, get_chunk_ranges, extract_ranges_from_chunks and read_ranges_from_file_chunked are compiled with integers of 64 bits, and the chunk range of each range is stored in 32 bits. Nothing overflows, and exactly the requested rows are returned, if the dataset has at most 2^63 rows less a chunk, fewer than 2^63 rows are requested, and there are at most 2^31 ranges or fewer than 2^31 chunks (2^32 chunks if no range is empty). The last bound is sharp: every other row of 2^32 + 1 chunks of one row makes the index of the last chunk negative, and memory outside of the buffer is read although the ranges are valid.", "quantifier": "all datasets, chunk sizes and ordered ranges inside of the dataset", "why_tests_cant": "Datasets with 2^32 chunks cannot be built in tests.", "anchors": ["swiftsimio/accelerated.py: ranges_from_array", "swiftsimio/accelerated.py: expand_ranges", "swiftsimio/accelerated.py: get_chunk_ranges", "swiftsimio/accelerated.py: extract_ranges_from_chunks", "swiftsimio/accelerated.py: read_ranges_from_file_chunked"]}
{"id": "C120", "title": "Arrays in different units", "statement": "Expressions over cosmo arrays in any units either are refused for their dimensions or give, in a unit of positive size, exactly what they give for the arrays in one system of units, errors included. Products, quotients and powers are never refused and have the product, quotient and power of the dimensions; sums and comparisons between equal dimensions are not refused and are worth the same in whichever units the operands are; between different dimensions they are refused unless one operand is zero throughout. constrain_spatial with region, box and cells in whatever units of length, and constrain_property with bounds in other units than the field, do and raise what they do with all of them in one unit, so the cells and particles chosen are those of the numbers (C100). A region whose rows have different dimensions is refused and leaves the mask as it was.", "quantifier": "all expressions, units of positive size, dimensions, regions, masks and states", "why_tests_cant": "Tests use a few units and never mix units, frames and zeros in one expression.", "anchors": ["swiftsimio/objects.py: cosmo_array.__array_ufunc__", "swiftsimio/objects.py: cosmo_array.__new__", "swiftsimio/_array_functions.py: _prepare_array_func_args", "swiftsimio/masks.py: SWIFTMask._sanitize_region", "swiftsimio/masks.py: SWIFTMask._generate_cell_mask", "swiftsimio/masks.py: SWIFTMask.constrain_spatial", "swiftsimio/masks.py: SWIFTMask.constrain_property"]}
{"id": "C121", "title": "Divisions by zero in the image backends", "statement": "With numba's tests of divisors, the projections (fast, histogram, renormalised, reference, subsampled) and volume renderings of at least one pixel never divide by zero, whatever the particles and box: they give what the loops without the tests give, also for smoothing lengths of zero or below. A slice divides by zero exactly if some periodic copy of a particle with smoothing length zero lies in its plane and in the image or less than one pixel beyond its upper edges. scatter_limited_z is fine for ratios from one to the resolution, divides by zero for a ratio of zero or above the resolution, and raises ValueError for negative ratios. For a resolution of zero all backends but the histogram raise ZeroDivisionError, and for a negative resolution ValueError.", "quantifier": "all resolutions, ratios, boxes, slices and particles", "why_tests_cant": "Tests use particles with extent, sensible resolutions and no ratios.", "anchors": ["swiftsimio/visualisation/projection_backends/kernels.py: kernel_single_precision", "swiftsimio/visualisation/projection_backends/kernels.py: kernel_double_precision", "swiftsimio/visualisation/projection_backends/renormalised.py: scatter", "swiftsimio/visualisation/projection_backends/subsampled.py: scatter", "swiftsimio/visualisation/slice_backends/sph.py: slice_scatter", "swiftsimio/visualisation/volume_render_backends/scatter.py: scatter", "swiftsimio/visualisation/volume_render_backends/scatter.py: scatter_limited_z"]}
{"id": "C122", "title": "Pictures of cosmo arrays in any frames", "statement": "project_pixel_grid, slice_pixel_grid and render_voxel_grid may be given a box, region, rotation centre, slice height, smoothing lengths and a field each in its own frame (comoving or physical). If all lengths have exponent one and one scale factor, the outcome is the one of the numbers in the frame of the coordinates, with the image in the frame of the field and its exponent lowered by two (projections) or three, and the coordinates left in the dataset keep their frame. Two datasets with the same field and the same physical lengths, in any frames, have the same projections and slices, or the same error, and the same volumes if the region is an exact cube; otherwise the absolute tolerance of np.isclose may refuse a region in one frame and accept it in the other. A region of another scale factor is refused by projections and slices: with InvalidScaleFactor if periodic, ValueError if not.", "quantifier": "all datasets, regions, rotations, masks, resolutions, backends and frames", "why_tests_cant": "Tests use a few datasets with comoving coordinates and boxes and compare shapes and totals of a few images.", "anchors": ["swiftsimio/visualisation/_vistools.py: _get_region_info", "swiftsimio/visualisation/_vistools.py: _get_rotated_and_wrapped_coordinates", "swiftsimio/visualisation/_vistools.py: backend_strip_and_restore_cosmo_and_units", "swiftsimio/visualisation/projection.py: project_pixel_grid", "swiftsimio/visualisation/slice.py: slice_pixel_grid", "swiftsimio/visualisation/volume_render.py: render_voxel_grid"]}
{"id": "C123", "title": "Pictures of empty and reversed regions", "statement": "With divisions as numpy makes them (infinities and not-a-numbers instead of errors): of a region both of whose sides in the plane are at most zero and one of them zero, no projection and no slice is made. A slice fails before the mask and the backend are looked at, a projection after the backend has run, both with ValueError if the side along x is zero and OverflowError if it is negative. A volume of an empty region is made without any error, and none of its voxels is a number. A region with one empty and one positive side gives a projection without pixels. A region whose limits along x are exchanged gives a projection that has lost its last rows and has negative densities; a slice of it is cut in the same way in serial and refused in parallel. For all other regions the pictures are those of exact arithmetic with nonzero divisors (C42, C43, C62, C63).", "quantifier": "all regions, boxes, rotations, masks, datasets, resolutions, frames and backends", "why_tests_cant": "Tests take regions of positive size; the outcome for the others depends on the order of the divisions and conversions.", "anchors": ["swiftsimio/visualisation/_vistools.py: _get_region_info", "swiftsimio/visualisation/_vistools.py: backend_strip_and_restore_cosmo_and_units", "swiftsimio/visualisation/projection.py: project_pixel_grid", "swiftsimio/visualisation/slice.py: slice_pixel_grid", "swiftsimio/visualisation/volume_render.py: render_voxel_grid", "swiftsimio/visualisation/slice_backends/sph.py: slice_scatter", "swiftsimio/visualisation/slice_backends/sph.py: slice_scatter_parallel"]}
{"id": "C124", "title": "Nearest-neighbour slices in the coordinates of the dataset", "statement": "slice_pixel_grid with the nearest-neighbour backend gives every pixel the mass (or other field) over the cubed size of a particle that is nearest to the pixel's centre, in the coordinates of the dataset: nearest among all the particles that the mask keeps, where they are seen after the rotation, and among all their copies if the box is periodic. The centres are at (i + 1/2) pixels from the region's lower corner, at the height z_slice from the centre of rotation, whichever box that height is in. If no particle is left, IndexError is raised. A part of the particles gives the same value to a pixel if a nearest particle is among them and all nearest ones have the same value, but leaving out the particles that are outside of the region can change the picture.", "quantifier": "all datasets, masks, regions of positive extent, boxes, rotations, heights, resolutions, frames and scale factors", "why_tests_cant": "Tests compare nearest-neighbour slices with other pictures for one uniform box; they do not find the nearest copies for arbitrary regions, rotations and masks.", "anchors": ["swiftsimio/visualisation/slice.py: slice_pixel_grid", "swiftsimio/visualisation/slice_backends/nearest_neighbours.py: slice_scatter", "swiftsimio/visualisation/_vistools.py: _get_region_info", "swiftsimio/visualisation/_vistools.py: _get_rotated_and_wrapped_coordinates", "swiftsimio/visualisation/_vistools.py: backend_strip_and_restore_cosmo_and_units"]}
{"id": "C125", "title": "Wrapped coordinates and depths with rounded numbers", "statement": "With numbers of double precision, wrapping a coordinate into a periodic box gives a number from zero to the length of the box, both included. It is exact for coordinates that are not negative; for the others it is less than 2^-53 box lengths from an image. Wrapping again (as a second picture does in place) changes nothing, except that a coordinate at the end of the box goes to zero and stays there. Normalised coordinates are in the normalised box and, times the extent of the picture, at most 2^-50 times the box length and lower limit from an image of the coordinate, so that the conditions of the picture theorems hold for them. The depth of a periodic projection keeps the particles that are inside by a margin of 2^-52 boxes (3 * 2^-53 if they have to be wrapped first), if the depth is at least as much shorter than the box, and only particles that are inside or as close to it, if the depth is longer than that. A depth that is the whole box can keep nearly nothing (from -0.9 to 0.1 in a box of 1), and a depth shorter than that can keep everything.", "quantifier": "all coordinates, boxes, regions and depths in double precision (exponents not limited)", "why_tests_cant": "Tests use a few boxes and regions, for which the rounded remainders come out in order; the failures need limits whose remainders are rounded differently.", "anchors": ["swiftsimio/visualisation/_vistools.py: _get_rotated_and_wrapped_coordinates", "swiftsimio/visualisation/_vistools.py: _get_region_info", "swiftsimio/visualisation/projection.py: project_pixel_grid", "swiftsimio/visualisation/slice.py: slice_pixel_grid"]}
{"id": "C126", "title": "Numbers of pixels with rounded numbers", "statement": "With numbers rounded to 53 bits, for a resolution n below 2^50 and a region whose limits are in order: a projection has between 1 and n pixels along each side and exactly n along the longer one; each number is the one needed for a side whose length is within 3 * 2^-53 of the true one. A slice multiplies the resolution by the range before it divides, and has at least 1 and at most n + 1 pixels along each side, with n or n + 1 along the longer one. If the resolution is a power of two, slices and projections of the same region have the same numbers of pixels, at most n. Otherwise not: a slice of a square of side 0.7 at resolution 1000 has 1001 times 1001 pixels in double precision, and a projection of 20 by 11 at resolution 100 has 100 times 56 pixels where the slice has 100 times 55. With exact numbers the formulas are those of the functions modelled for C62.", "quantifier": "for all resolutions, ranges and limits of regions", "why_tests_cant": "which regions gain a row depends on the last bits of their limits, so that tests with round numbers and powers of two see none of them", "anchors": ["swiftsimio/visualisation/projection.py: project_pixel_grid", "swiftsimio/visualisation/slice.py: slice_pixel_grid", "swiftsimio/visualisation/_vistools.py: _get_region_info"]}
{"id": "C127", "title": "Pictures of subset files", "statement": "Every picture (projection, slice or volume, with any backend and options) made from a file that write_subset wrote with a mask is the picture made from the original file loaded with that mask: each attribute of each group holds the same rows and has the same flags. If the mask was made by a spatial constraint on a region that holds that of the picture widened by more than the largest kernel radius, the picture of the subset file is the picture of the whole original file, for smoothed projections, SPH slices and volumes. The same holds for a subset file that is loaded with a mask of its own, made by such a constraint, if the mask it was written with kept every particle whose kernel reaches the region.", "quantifier": "for all files whose cells tile them, masks, groups, backends, options, regions and schedules of threads", "why_tests_cant": "tests write subsets and make pictures separately; that the tables of cells, the counts and the rows of a subset file fit together for every later mask and picture is a statement about all files", "anchors": ["swiftsimio/subset_writer.py: write_subset", "swiftsimio/masks.py: SWIFTMask.constrain_spatial", "swiftsimio/visualisation/projection.py: project_pixel_grid", "swiftsimio/visualisation/slice.py: slice_pixel_grid", "swiftsimio/visualisation/volume_render.py: render_voxel_grid"]}
{"id": "C128", "title": "Histograms with a range", "statement": "np.histogram on a cosmo array with a number of bins and a range given as one cosmo array of two increasing values is the histogram with the edges of equal bins between these values, with the label and frame of the range, whatever the frames of data, range and weights; so, if range and data scale alike, counts (or total weights) are those of the physical values in equal bins between the physical ends of the range. Without a range it is the function of C69, whose edges then are equal bins from the least to the greatest value. A range in the wrong order or without exactly two values is a ValueError. Given edges win over a range in the frame of the data. A range given as a pair of two quantities is the same as the array of the two if data, range and weights are in one frame, but its frame is never looked at: comoving 1 and 3 at scale factor 2 are both counted in the physical range 0 to 4. A range of two equal values becomes one unit wide in whatever frame the numbers end up in.", "quantifier": "for all scale factors, exponents, values, frames, numbers of bins, ranges and weights", "why_tests_cant": "the tests compare labels of results of one call each; ranges in another frame than the data, or as tuples, are not among them", "anchors": ["swiftsimio/_array_functions.py: histogram", "swiftsimio/_array_functions.py: _prepare_array_func_args"]}
{"id": "C129", "title": "What works without the optional packages", "statement": "Whatever packages are installed: each flag says whether its package can be imported, and the name beside it is the real one exactly then. The flag of CUDA, the module cuda and its compiler are real exactly if CUDA can be used. Without numba everything runs on one thread, with it on numba's number of threads, never on none. Smoothing lengths and nearest-neighbour slices stop with an ImportError exactly if scipy is missing, GPU projections with a CudaSupportError exactly if CUDA cannot be used. Cosmologies are the dictionary of the file exactly if astropy is missing; progress bars change nothing; soft links and datasets of local and remote files are recognised whether hdfstream is there or not. Reading and pictures can always be imported; the power spectra need scipy and the colour maps matplotlib at import although both are optional, and images of volumes without matplotlib fail with an AttributeError of None.", "quantifier": "for all combinations of installed packages and states of CUDA", "why_tests_cant": "a test run has one set of packages installed", "anchors": ["swiftsimio/optional_packages.py: module", "swiftsimio/_file_utils.py: is_soft_link, is_dataset", "swiftsimio/conversions.py: swift_cosmology_to_astropy", "swiftsimio/visualisation/projection_backends/gpu.py: scatter", "swiftsimio/visualisation/smoothing_length/generate.py: generate_smoothing_lengths"]}
{"id": "C130", "title": "What printed objects say", "statement": "The text of a cosmo array determines its frame and unyt's text, whatever that is; that of np.array2string does if unyt's text does not end like a frame. The texts of files and groups of datasets determine the file and the names of the groups or fields in their order, if there is one and no name has a comma or line break; a file without groups looks like one with a nameless group. Mapping tables show their numbers of rows and columns, and cannot be printed without rows. Fields with named columns have as many entries as columns and are equal exactly if their names and columns are, so that fields of different particle types can be equal.", "quantifier": "for all texts, names, frames and tables", "why_tests_cant": "tests compare single texts; that different objects have different texts is about all pairs", "anchors": ["swiftsimio/_array_functions.py: array2string", "swiftsimio/objects.py: cosmo_array.__str__", "swiftsimio/reader.py: SWIFTDataset.__str__, __SWIFTGroupDataset.__str__, __SWIFTNamedColumnDataset.__len__, __SWIFTNamedColumnDataset.__eq__", "swiftsimio/metadata/objects.py: MappingTable.__str__, MassTable.__str__, SWIFTGroupMetadata.__str__", "swiftsimio/statistics.py: SWIFTStatisticsFile.__str__"]}
{"id": "C131", "title": "Histograms of several axes with ranges", "statement": "np.histogram2d and np.histogramdd on cosmo arrays without density, where any of the axes have a number of bins and a range given as one cosmo array of two increasing values that scales like the data, give counts (or total weights) of the physical values in equal bins between the physical ends of the ranges, whatever the frames of the data, the ranges and the weights. Each such call, and those with density, equals the call without ranges where these axes have the edges of equal bins instead. np.histogramdd with density never looks at the frames of its ranges: comoving 1 at scale factor 2 is found in the physical range from 1 to 3/2. np.histogram_bin_edges with a number and a range gives equal bins between the physical ends. An axis whose range is in the wrong order or has not two values makes a call without density a ValueError. Without ranges the functions are those of C69.", "quantifier": "for all scale factors, exponents, values, frames, numbers of axes and bins, ranges and weights", "why_tests_cant": "the tests call each function with a few arrays that are all comoving or all physical and look at the labels", "anchors": ["swiftsimio/_array_functions.py: histogram2d", "swiftsimio/_array_functions.py: histogramdd", "swiftsimio/_array_functions.py: histogram_bin_edges"]}
{"id": "C132", "title": "Padding of spatial masks", "statement": "For a snapshot whose cells have no bounding boxes in the file, mask(filename, safe_padding=f) followed by constrain_spatial(region) keeps, in the mask that the user sees under the name of the group, every row whose particle lies in the region and is no more than f cell lengths outside of the cell it is stored in (True means a tenth, False means zero). So the default does not do what the text of swiftsimio.mask says: a particle half a cell length outside of its cell is missed, although the text has the default pad by one cell length so that all particles are selected; with safe_padding=1.0 it is found.", "quantifier": "for all snapshots, tables of cells, paddings, groups, rows, positions and regions", "why_tests_cant": "the tests compare a few masks of one snapshot with bounding boxes in the file", "anchors": ["swiftsimio/__init__.py: mask", "swiftsimio/masks.py: SWIFTMask.__init__, _unpack_cell_metadata"]}
{"id": "C133", "title": "Kernels computed with rounded numbers", "statement": "With every operation rounded to the nearest number of double precision in the order of the source, the kernel of projections and the kernel of slices differ from the exact Wendland kernel by at most 80 * 2^-53 of the value at the centre for every distance r >= 0 and width H > 0; the single precision constant adds 2^-24 (and two roundings) of the value at the centre. No computed value is negative. Beyond H (1 + 3 * 2^-53) the value is exactly zero and up to H (1 - 3 * 2^-53) it is positive; in between it can be positive where the exact kernel is zero (r = H = 49).", "quantifier": "for all distances and widths (without limits of the exponent)", "why_tests_cant": "tests compare pictures with tolerances of a per cent; a bound for all distances and widths needs an analysis of each rounding", "anchors": ["swiftsimio/visualisation/projection_backends/kernels.py: kernel_single_precision, kernel_double_precision", "swiftsimio/visualisation/slice_backends/sph.py: kernel"]}
{"id": "C134", "title": "Equivalent regions", "statement": "On a fresh mask, constrain_spatial selects the same rows for regions whose rows ask for the same interval of the periodic box: moved by whole boxes, with exchanged bounds (from the greater one through the edge of the box to the smaller one) instead of a lower bound below zero, longer than the box instead of None. The slab of the documentation selects the same rows as one interval below zero, with exchanged bounds and as two calls with union=True; more generally an interval that is no longer than the box can be cut anywhere and its parts united. Wider regions select at least the same rows, and regions longer than the box on every axis select what the mask selects without any constraint.", "quantifier": "for all snapshots whose cells reach at most half a box out of the box, all rows on the other axes and all bounds in the allowed window", "why_tests_cant": "tests compare a handful of regions on one snapshot; equality has to hold for every table of cells and every bound, including those on cell boundaries", "anchors": ["swiftsimio/masks.py: SWIFTMask.constrain_spatial, _generate_cell_mask", "docs/source/masking/index.rst: Periodic boundaries"]}
{"id": "C135", "title": "Pictures are weighted sums and their quotients averages", "statement": "The value of every pixel or voxel of every backend, and of the pictures that project_pixel_grid, slice_pixel_grid and render_voxel_grid make with any region, rotation, mask, depth range and periodicity, is the sum over the rows of the pictured quantity times weights that do not depend on the quantity (rows that are masked out weigh nothing). So whether a picture can be drawn does not depend on the quantity and the picture of a linear combination is the combination of the pictures. The weights are not negative if the smoothing lengths are not and the region is not inside out, so pictures do not decrease with the quantity; and where the picture of a non-negative quantity m is not zero, it is positive and the picture of m t divided by it is between any bounds of t. This is the mass-weighted temperature map of the documentation; it also holds for the parallel and GPU functions. Slices with the nearest particles are such sums too, and their quotients are values of t itself.", "quantifier": "for all lists of rows with any positions and smoothing lengths, all quantities, resolutions, regions, boxes and all pixels", "why_tests_cant": "tests draw one or two fields of one snapshot; that weights do not depend on the field is a statement about pairs of runs on all data", "anchors": ["swiftsimio/visualisation/projection.py: project_pixel_grid", "swiftsimio/visualisation/slice.py: slice_pixel_grid", "swiftsimio/visualisation/volume_render.py: render_voxel_grid", "swiftsimio/visualisation/projection_backends/fast.py: scatter", "docs/source/visualisation/projection.rst: projected temperature map", "swiftsimio/visualisation/slice_backends/nearest_neighbours.py: slice_scatter"]}
{"id": "C136", "title": "Quotients of pictures with rounded numbers", "statement": "With rounded numbers too every backend writes, for a particle, to pixels that do not depend on the pictured quantity, the quantity times non-negative weights that do not depend on it, up to two roundings. So if a quantity q is between lo m and hi m in every row (such as mass times temperature), the quotient of a pixel of the picture of q and of that of m is between lo and hi up to a factor (1+e)/(1-e)(1+5u), where e is the relative error of the sums of the pixel, (1+u)^k - 1 for k writes, and with threads k grows by the numbers of threads and workers. For a million writes in single precision e is below one fifth. The bounds themselves are not kept: the map of a constant temperature can be above it.", "quantifier": "for all lists of rows with any positions and positive smoothing lengths, all quantities, resolutions, boxes, pixels, types of images, numbers of threads and distributions of their turns", "why_tests_cant": "tests compare a few maps with a tolerance; a bound on all of them, and that no cancellation can spoil a map of an average, cannot be tested", "anchors": ["swiftsimio/visualisation/projection_backends/fast.py: scatter, scatter_parallel", "swiftsimio/visualisation/projection_backends/subsampled.py: scatter", "swiftsimio/visualisation/slice_backends/sph.py: slice_scatter", "swiftsimio/visualisation/volume_render_backends/scatter.py: scatter", "docs/source/visualisation/projection.rst: projected temperature map"]}
{"id": "C137", "title": "Rotated coordinates with rounded numbers", "statement": "The coordinates that pictures rotate around a centre are, with rounded numbers and whatever the order in which the matrix product adds, within five roundings of the exact rotation relative to the size of the centre and of the products. If the matrix is within e of an orthogonal one in every entry, the rotated point and its distance to the centre are off by at most 2 (6 u (|c| + (1+2e) d) + 2 e d), with |c| the size of the centre and d the distance to it; rotating back with the transposed matrix returns to the coordinates within the two errors; the particles in the depth of a region are those of the exact rotation up to that error. The centre itself is exactly kept, whatever the matrix. The identity matrix keeps coordinates exactly around the origin and between half of and twice the centre's coordinates, but not in general: 0.1 around the centre 1 is moved.", "quantifier": "for all matrices, centres, coordinates, orders of the sums, deviations e and depths", "why_tests_cant": "tests compare rotated pictures of a few rotations with a tolerance; they cannot bound the error for all centres and coordinates", "anchors": ["swiftsimio/visualisation/_vistools.py: _get_rotated_and_wrapped_coordinates", "swiftsimio/visualisation/rotation.py: rotation_matrix_from_vector"]}
{"id": "C138", "title": "What the representation of an array tells", "statement": "The representation of an array is unyt's without its closing bracket, the comoving flag, the scale factor's text, the valid_transform mark and a closing bracket; an object without these attributes has unyt's representation. Two arrays have the same representation only if unyt's texts, the flags, the factors' texts (without quotes) and the marks all agree; for the same text of unyt also if the factors' texts have quotes.", "quantifier": "for all texts of unyt, flags, factors and marks", "why_tests_cant": "tests print a few arrays; that no two different arrays are printed alike is about all pairs", "anchors": ["swiftsimio/_array_functions.py: array_repr", "swiftsimio/objects.py: cosmo_array.__repr__"]}
{"id": "C139", "title": "The deprecated argument intersect of constrain_spatial", "statement": "Calls of constrain_spatial with the deprecated argument intersect do to the mask, and raise, exactly what calls with union of the same value do, whatever union is set to in the same call, and warn exactly when the argument is given. If warnings are errors, such a call raises before it looks at the region and leaves the mask alone. Several calls with intersect=True select the union of the regions, not their intersection.", "quantifier": "for all metadata, sequences of calls with and without the argument, regions (also malformed), values and states of the mask", "why_tests_cant": "tests make one or two calls with one region; they cannot compare all sequences", "anchors": ["swiftsimio/masks.py: SWIFTMask.constrain_spatial"]}
{"id": "C140", "title": "Nearest-neighbour slices of masked datasets", "statement": "If each pixel of a nearest-neighbour slice has a particle within a distance w of its middle, and the mask with which the group is loaded keeps each particle within w of the middle of some pixel, then the slice of the loaded group is the slice of the whole group, as long as nearest particles that are equally near have the same value. A mask made by constrain_spatial from a region that holds the picture and its height, widened by more than w, also through the boundaries of the box, is such a mask. The mask of just the picture is not enough, even if it keeps a particle; a mask that keeps none gives an IndexError.", "quantifier": "for all files, cell structures, masks, particles with volumes, regions, resolutions, heights, rotations (periodic or not) and scale factors", "why_tests_cant": "tests compare no slices of masked datasets; the statement is about all files and masks", "anchors": ["swiftsimio/visualisation/slice_backends/nearest_neighbours.py: slice_scatter", "swiftsimio/visualisation/slice.py: slice_pixel_grid", "swiftsimio/visualisation/smoothing_length/nearest_neighbours.py: get_hsml", "swiftsimio/masks.py: SWIFTMask.constrain_spatial"]}
{"id": "C141", "title": "Rotation matrices from vectors with rounded numbers", "statement": "In double precision, whatever the order of the sums, rotation_matrix_from_vector of a vector that is not zero decides between flipping the axis and turning as exact numbers would, except for sines within 14 roundings of the threshold 1e-6; if it turns, the vector to turn around is within 19 roundings of the exact one in each coordinate (so of length one within 19), the cosine is within 6 roundings and strictly between -1 and 1, so that the arccosine is a number, and its exact sine is within 2e-9; with exact sine and inverse the matrix is then within 5e-8 of the exact rotation in every entry, and coordinates rotated with it in double precision are as near as that allows. Vectors times powers of two give the same. With the limits of exponents this does not hold: a vector so long that its square is infinite flips the axis whatever its direction, one so short that its square is zero gives NaN, as the zero vector does, without an exception.", "quantifier": "for all vectors, axes and orders of the sums, in real numbers rounded to 53 bits; the last sentence for doubles", "why_tests_cant": "tests compare matrices of single vectors with tolerances; they cannot exclude a NaN for some vector near the axis", "anchors": ["swiftsimio/visualisation/rotation.py: rotation_matrix_from_vector"]}
{"id": "C142", "title": "Property constraints with several columns or several bounds", "statement": "constrain_property of a dataset with more than one axis (also one column) raises ValueError whatever the bounds, and leaves the selection and the label of the mask as they were. With a number for each particle and bounds that are quantities it is the constraint of C14. A bound may also be an array of one number, or of as many numbers as particles are selected already: then the n-th number belongs to the n-th selected particle, not to the n-th particle of the group, and exactly the particles above their lower and not above their upper bound stay. Every other number of bounds is refused with ValueError, so bounds for all particles of a group do not work once some are not selected.", "quantifier": "for all reachable masks, datasets and bounds", "why_tests_cant": "tests constrain one-dimensional fields with quantities", "anchors": ["swiftsimio/masks.py: SWIFTMask.constrain_property", "swiftsimio/masks.py: SWIFTMask.convert_masks_to_bool"]}
{"id": "C143", "title": "Pixels of smoothed projections with rounded numbers", "statement": "With n < 2^24 pixels along each axis and numbers rounded as numba types the fast backend for masses and smoothing lengths of double precision, the signature of the kernel left out (positions, cell numbers and the kernel's constants in single precision, operations in double precision), every pixel of a particle's copy whose kernel is wider than a pixel differs from mass times the exact kernel at the exact distance of the pixel's centre by at most |m| K(0) (6 u24 + 17/8 (e(x) + e(y)) / H), with H the kernel's radius, u24 = 2^-24, u53 = 2^-53 and e(x) = (u24 + 2 u53) |x| + 28 u53. This holds for the pixels that are written and for those that are not: a pixel that is left out is at least a radius away, so the rounded cell and number of cells never cut a kernel off. Kernels of radius 5/4 pixels or more are wide enough, with radii up to 2^21 pixels and positions up to 2^30 pixels away. A whole image of single or double precision differs from the exact sum over the periodic copies at their exact positions by at most the sum of these errors, the errors of the computed positions (|m| K(0) 17/8 d / H for a position off by d) and what the additions round. With compiled kernels, whose radius, width and value are narrowed to single precision, and with masses and smoothing lengths of either precision, the same holds with 19 u24 + 9/4 (e(x) + e(y)) / H and radii up to 2^20 pixels, also for the threads of a GPU in any order, and the threads of a launch do each copy of each particle that the fast backend draws once. The same holds with several threads, one more rounding being counted for each thread and each worker. A kernel that is not wide is added to one pixel, m n^2 with one rounding, and that pixel contains the particle up to an eighth of a pixel.", "quantifier": "for all particles, copies, resolutions, pixels and image types", "why_tests_cant": "tests compare images with each other and with tolerances at a few resolutions", "anchors": ["swiftsimio/visualisation/projection_backends/fast.py: scatter", "swiftsimio/visualisation/projection_backends/kernels.py: kernel_single_precision"]}
{"id": "C144", "title": "Pixels of slices and voxels of volume renderings with rounded numbers", "statement": "With fewer than 2^24 pixels along each axis and numbers rounded as the slice and volume backends round them (positions and cell numbers in single precision, the rest in double precision), every pixel of a slice and every voxel of a volume differs, for a copy of a particle, from mass times the exact kernel at the exact distance of the centre by at most |m| K(0) (400 u53 + 17/8 d / H), d being the sum of the errors along the axes ((u24 + 2 u53) |x| + 28 u53 for axes with pixels, u53 |z - z_slice| for the height over a slice), plus |m| K(0) 5 (7 p / (8 H))^4 for each pixel width p: the loops leave out the last cell on one side, so a pixel within 7/8 of a pixel of the kernel's edge may miss its value, and no other. Particles that a slice leaves out because of their height have at most |m| K(0) u53 in it. For volumes the radius is at least 5/8 of a voxel; smaller kernels go into one voxel. Radii and positions are up to 2^30 pixels. Whole images and volumes, also with fewer voxels along the last axis, differ from the exact sum over the periodic copies at their exact positions by the sum of these errors, those of the computed positions and what the additions round. The same holds with several threads, one more rounding being counted for each thread and each worker.", "quantifier": "for all particles, copies, resolutions, pixels, voxels and image types", "why_tests_cant": "tests compare slices and volumes with each other and with tolerances at a few resolutions", "anchors": ["swiftsimio/visualisation/slice_backends/sph.py: slice_scatter", "swiftsimio/visualisation/volume_render_backends/scatter.py: scatter", "swiftsimio/visualisation/volume_render_backends/scatter.py: scatter_limited_z"]}
