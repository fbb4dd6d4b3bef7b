# Formal model of swiftsimio in Rocq (Coq 8.16.1)

The model lives in `rocq/theories`; every file is listed in `rocq/_CoqProject`.  For each area `X`:

* `XModel.v`   definitions only, function by function, each with a comment citing the lines of
  `/repo` it models and every simplification made;
* `XSpec.v`    small specifications used in the statements, without the model's helpers;
* `X...Proofs.v`  lemmas;
* `XTheorems.v` the property theorems `Cnn_...`, concrete cases that meet their hypotheses, and a
  `Print Assumptions` for each theorem.

`Base.v` / `BaseLemmas.v` hold results with errors (`res A := Ok a | Err e`), integer ranges and list updates.
`MANIFEST.json` is made by `tools/gen_manifest.py` from the theorem names and `tools/notes.json`.
`tools/mutate.py` applies wrong edits to a copy of the model, rebuilds it and logs which theorems fail
(`seeded/LOG.jsonl`); `tools/screen.py` does the same with mechanical edits of every definition and lists the edits that
no theorem notices.

A theorem named `..._refuted` proves that a tempting statement is false of the code (a finding); a property
whose statement is such a counterexample is "proved" by it.

## Conventions

* numpy integers are `Z` without overflow, other than the pixels of C118 and the rows and chunks of C119; sizes and indices are `Z` or `nat`.
* Python exceptions are values; nothing is ever given a default instead of an error.  Reads of memory that was
  not written (`np.empty`) and writes outside an array in compiled code are errors as well (`UndefinedRead`).
* Floating point is exact: rationals `Q` in the mask area, real numbers `R` in the areas Cosmo, Ctor, Func, Writer, Vis,
  Front, Rot, Hsml, Cmap, Power and Spectrum.  Rounding, NaN, infinity and dtypes are not modelled.
* HDF5 files are records of datasets (lists of rows) and attributes.
* The behaviour of libraries (h5py, the hdfstream server, numpy's sort, scipy's KDTree, numpy's FFT) is either an
  argument of the model that the theorems quantify over, or a specification stated in the model file.
* Units: unyt itself is not modelled.  In the areas Cosmo, Func and Region operands are taken to be in one unit; UnitOp (C120) has
  what unyt does with the units of operands written down and shows that this is no loss.  The writer and the reader of
  units (C33, C55) are modelled with a unit as its value in cgs; conversions (C87) with units that have a dimension and a size.

## What is modelled

| Area | Source | Definitions | Properties |
|---|---|---|---|
| Ranges | accelerated.py, _ordered_slices.py | all functions: `ranges_from_array`, `expand_ranges`, the contiguous and the chunked reader with their buffers and write positions, the choice between them, `concatenate_ranges`, `OrderedSlices` | C01-C06, C48 |
| Mask | masks.py | `SWIFTMask`: cell tables, `_generate_cell_mask`, `constrain_spatial`, `constrain_mask`, `constrain_index(es)`, `convert_masks_to_ranges`, `get_masked_counts_offsets`; the object as a state machine | C07-C19 |
| MaskNames | masks.py | the same object with its dictionaries and attributes by name: `group_mapping`, `group_size_mapping`, `update_list`, `__getattr__`, `_generate_empty_masks`, `_unpack_cell_metadata`, all constraints; proved to do what Mask does | C90 |
| Reader | reader.py | field properties, their cache, deletion, masks, named columns, the dataset's shapes | C20, C21 |
| Subset | subset_writer.py | selection of datasets, counts, cell table, output type | C22-C24 |
| Tree | subset_writer.py | groups, links, attributes, header and cell tables of the written file | C73, C74 |
| Stats | statistics.py, accelerated.py | `SWIFTStatisticsFile`, `list_of_strings_to_arrays` | C75, C76 |
| Meta | metadata/objects.py, metadata_fields.py, reader.py | metadata objects of the four kinds of files: header, cosmology flag, groups, named columns, mapping tables; attributes of lines of sight | C77-C80 |
| Info | metadata/objects.py, swiftsnap.py, \_\_init\_\_.py | the texts that describe files, formatting of numbers, the program swiftsnap, `validate_file` | C88-C89 |
| Conv | conversions.py | parameters of astropy cosmologies, background temperature, neutrino masses | C81-C82 |
| Cosmo | objects.py, _array_functions.py | `cosmo_factor`, flags of `cosmo_array`, conversions on shared memory, argument preparation, rules for ufuncs | C25-C30, C49-C51 |
| Ctor | objects.py | constructors of `cosmo_array` and `cosmo_quantity`, pickling, `from_astropy`, `from_pint`, conversions with units | C86-C87 |
| Func | _array_functions.py | the wrapped numpy functions: label rules, argument preparation with keywords, output arrays, lists of arrays, writing, averages, comparisons, histograms | C64-C69 |
| Writer | snapshot_writer.py, attr_reader.py, unit_types.py | writer datasets, IDs, required fields, attributes, header, units read back | C31-C33, C52-C56 |
| Names | metadata/objects.py, soap_types.py, particle_types.py | snake case, named columns, group names | C34, C57, C58 |
| Handles | _handle_provider.py, _file_utils.py and their users | handle state machine with arbitrary failures | C35 |
| Vis | projection_backends, slice_backends/sph.py, volume_render_backends | every backend as the list of its writes, serial, threaded and GPU | C36-C41, C91 |
| Kernel | projection_backends/kernels.py, slice_backends/sph.py | the kernels (definitions in VisModel.v) as functions on the line | C83-C84 |
| Front | _vistools.py, projection.py, slice.py, volume_render.py | regions, rotation and wrapping, depth and masks, normalisation, trimming | C42, C43, C62, C63 |
| VolImage | volume_render.py | `render_voxels_to_array`, `visualise_render`, `visualise_render_options` with norms as shared objects | C92 |
| Ufunc | objects.py, _array_functions.py | the ufunc registry, `__array_ufunc__` (calls, reductions, `out`, warnings) | C93 |
| Prep | _array_functions.py | `_prepare_array_func_args` and the default wrappers for all arguments (model in FuncModel.v, CosmoModel.v) | C94 |
| Class | objects.py, _array_functions.py | classes, shapes and attributes of the results of methods, of ufuncs and of unyt's hook; `__array_function__` and numpy's dispatch; `__mul__` by a unit; `__str__` | C95 |
| Factor | objects.py | `cosmo_factor` with operands that are no labels, reflected operators, comparisons, texts | C96 |
| Axes | _array_functions.py | `apply_over_axes` on arrays of any shape, with numpy's own loop and `np.sum` over an axis | C97 |
| Parts | _array_functions.py | `linalg.lstsq`, `eig`, `eigh`, `linspace(retstep)`, `sinc`, `savetxt` | C98 |
| MaskAttr | masks.py | attribute access of `SWIFTMask` (properties, dictionary, `__getattr__`), rebuilding by `copy` and `pickle` | C99 |
| Region | masks.py | `_sanitize_region`, `_generate_cell_mask`, `constrain_spatial`, `constrain_property` on cosmo arrays with frames, scale factors and exponents (on top of the arithmetic of Cosmo and the constructors of Ctor), equal to Mask on numbers | C100 |
| MaskHeap | masks.py, reader.py | the arrays of a mask in memory, shared with datasets and users: which methods assign to elements and which put new arrays into attributes; programs of calls, loads and reads | C101 |
| Seen, SeenFront | visualisation backends and front ends (models of Vis, Front) | pictures of a part of the particles | C102 |
| Get | _vistools.py `_get_projection_field`, smoothing_length `get_hsml` functions, the tables of backends, the user functions of projection.py, slice.py, volume_render.py | what pictures are made of | C103 |
| Pipe | groups of a dataset loaded with a mask (models of Mask, Reader) as input of the picture functions (model of Get) | pictures of masked datasets | C104 |
| Order | accelerated.py to_native_byteorder_inplace and its callers | byte orders, values from bytes | C105 |
| Label | attr_reader.py (all), the getter of reader.py from the attributes on (constructor: model of Ctor, units: model of Writer) | what attributes make of an array | C106 |
| Trip | snapshot_writer.py 182-280, 743-853 (layout of the file), extra_header, required_fields.py handles; reader.py 590-660 (from field names to datasets) | a written file as the reader sees it | C107 |
| Assign | snapshot_writer.py 145-180, 325-530, 660-697, required_fields.py | what can be assigned to fields, generated smoothing lengths | C108 |
| Units | metadata/objects.py 761-824 (SWIFTUnits), unit_types.py, writer/unit_systems.py | the units of a file, files in the default units | C109 |
| Reopen | subset_writer.py output as seen by metadata/objects.py | subset files opened again | C110 |
| Round | the loops of the visualisation backends, `deposit`, `apply_color_map` over any arithmetic | indices that are written or read, with rounding and NaN | C111, C112 |
| RoundMask | masks.py: the selection of cells over any arithmetic | what rounding does to spatial masks | C113 |
| RoundConv | objects.py: `convert_to_comoving`, `convert_to_physical` over any arithmetic | what rounding does to conversions; arrays of integers | C114 |
| RoundSum | `image[i, j] += value` and the sums of threads' images over any arithmetic | how far images are from exact sums, what depends on the threads | C115 |
| Outside | `constrain_indices`, `read_ranges_from_file_(un)chunked` for rows outside of the dataset (RangesModel.v) | what is read, what fails, what is undefined | C116 |
| Shape | `_generate_getter`'s output shape, `read_ranges_from_file_(un)chunked`, `_write_datasubset` for datasets with any number of axes | when h5py can broadcast, what is read | C117 |
| Narrow | `np.int32(...)` in all visualisation backends, over any arithmetic of Round | numbers that do not fit, radius of a kernel | C118 |
| Word | the compiled functions of accelerated.py with integers of 64 and 32 bits | (that of Ranges) | C119 |
| UnitOp | objects.py, masks.py: the functions of Cosmo and Region for arrays with units | arithmetic, comparisons, expressions, lists, region, cell masks, both constraints | C120 |
| Div | projection_backends, slice_backends/sph.py, volume_render_backends/scatter.py with numba's test of divisors | kernels, all serial backends, scatter_limited_z | C121 |
| Frame | visualisation/_vistools.py, projection.py, slice.py, volume_render.py on cosmo arrays | f_region_info, f_placed, restored, f_project, f_slice, f_voxels | C122 |
| Degen | visualisation/projection.py, slice.py, volume_render.py with infinities and not-a-numbers | ndiv, nmul, nmod, int_ceil, nproject, nslice, nvoxels | C123 |
| Near | visualisation/slice.py with backend nearest_neighbours | nearest_backend, near_slice | C124 |
| Wrap | visualisation/_vistools.py, projection.py, slice.py: wrapping and depth in any arithmetic | wrap_coord, normed_coord, kept_depth, depth_mask | C125 |
| Rows | visualisation/_vistools.py, projection.py, slice.py: numbers of pixels in any arithmetic | rows_projection, rows_slice, larger_range, shape_projection, shape_slice | C126 |
| Scene | groups of subset files (models of Subset, Pipe) as input of the picture functions | attributes | C127 |
| Hrange | _array_functions.py: histogram with range= | range_op, range_numbers, edges_in, np_histogram_in | C128, C69 |
| Pack | optional_packages.py, _file_utils.py, checks in gpu.py, generate.py, nearest_neighbours.py, volume_render.py, conversions.py | optional, tree_checked, gpu_checked, plt_used, cosmology, tracked, is_soft_link, is_dataset, import_module | C129 |
| Print | reader.py, statistics.py, metadata/objects.py, objects.py, _array_functions.py: texts, lengths, comparisons | array2string, array_str, group_text, file_text, mapping_text, columns_eq | C130 |
| Haxes | _array_functions.py: histogram2d, histogramdd, histogram_bin_edges with range= | np_hist_counts_in, np_hist2d_density_in, np_histdd_density_in, np_bin_edges_in | C131 |
| Pad | masks.py, \_\_init\_\_.py: mask (models of Mask and MaskNames) | what the padding of cells guarantees | C132 |
| Kround | kernels.py, slice_backends/sph.py (models of Round and Vis) | kernels with rounded numbers against exact ones | C133 |
| Equiv | masks.py (model of Mask) | regions that the documentation calls equivalent | C134 |
| Average | projection, slice and volume functions (models of Vis, Power, Front) | pictures are weighted sums with weights that do not depend on the pictured quantity; their quotients are averages | C135 |
| Quotient | all backends with rounded numbers (models of Round, RoundSum) | quotients of two pictures, serial and parallel | C136 |
| Turn | visualisation/_vistools.py 158-167 with rounded numbers | rotated coordinates, distances, depth | C137 |
| Text | _array_functions.py `array_repr` | what the representation of an array tells | C138 |
| Intersect | masks.py 746, 811-817 | the deprecated argument `intersect` | C139 |
| NearPipe | groups loaded with a mask (models of Mask, Reader) as input of nearest-neighbour slices (models of Get, Near) | nearest-neighbour slices of masked datasets | C140 |
| Aim | visualisation/rotation.py 31-68 over any arithmetic | the directions of a rotation matrix with rounded numbers | C141 |
| Bound | masks.py 475-556 | `constrain_property` with several columns and arrays of bounds | C142 |
| Pix | projection_backends/fast.py 26-170 | the pixels of `scatter` with rounded numbers against the exact kernel | C143 |
| Solid | slice_backends/sph.py 124-227, volume_render_backends/scatter.py 84-446 | slices and volumes with rounded numbers against the exact kernel | C144 |
| Shared | the `scatter_parallel` functions | the bounds of C143 and C144 with several threads | C143, C144 |
| Signed | kernels.py 11-55, fast.py 80-175, gpu.py 14-281 | C143 with what numba's signatures and single precision arrays narrow | C143 |
| Rot, Hsml, Cmap | rotation.py, smoothing_length/generate.py, slice_backends/nearest_neighbours.py, tools/cmaps.py | all functions apart from plotting | C45-C47, C59, C60, C85 |
| Power | power_spectrum.py | deposition, folding, `render_to_deposit` | C44, C61 |
| Spectrum | power_spectrum.py | `deposition_to_power_spectrum`, `folded_depositions_to_power_spectrum` | C70-C72 |

## What is not modelled

* Rounding, overflow, NaN and infinities, other than in the integers of C118 and C119, the indices of C111 and C112, the cells of C113, the conversions of C114, the sums of C115, the wrapped coordinates of C125, the kernels of C133, the quotients of C136, the rotated coordinates of C137, the directions of C141, the pixels of C143 and C144, the numbers of pixels of C126, the units of C109 and the infinities of C123; dtypes; memory exhaustion; the GIL.
* unyt's unit algebra; matplotlib apart from `Normalize` (C92); h5py's and numpy's internals; numba's compilation (fused or reordered operations), and the precision of literals in interpreted functions with NumPy 2; threads that race (threads
  work on their own slices and images, any order of completion is covered).
* Remote files beyond the order of their slices (C05); datasets with more than two axes apart from C117; cyclic
  links.
* The class `w0waCDM` of astropy; `textwrap`; argparse; from _array_functions.py
  `range=` of plain numbers in histograms; shapes of arrays there.
* Images with other than four channels as
  colour maps.

Each model file says at its top and at each definition what it leaves out.

## Trusted base

* Coq's kernel (8.16.1).
* What `Print Assumptions` lists for each theorem (at the end of each `*Theorems.v`, printed by the build).  The areas
  Ranges, Mask, Reader, Subset, Tree, Stats, Meta, Info, Names, Handles, Reopen and Round (C111, without RoundExact) are closed under the global context.  The areas over `R` use these
  axioms of the standard library, directly or through its lemmas on real numbers, and no others:
  - `ClassicalDedekindReals.sig_forall_dec`
  - `ClassicalDedekindReals.sig_not_dec`
  - `FunctionalExtensionality.functional_extensionality_dep`
  - `Classical_Prop.classic`
* Flocq's definition of rounding (RoundFloatModel.v), a definition and not an axiom; its lemmas use no axioms but those
  above.
* That the model says what the Python source does, as cited line by line.

No axiom, parameter, functor, module type, admitted proof or disabled check is used.

## Findings

Statements about the code that the proofs refute, with the theorem:

* out-of-order ranges: the chunked reader returns wrong rows or fails (C04); a remote read without ranges fails (C05);
  an empty range makes the chunked reader read a whole chunk (C48);
* closed regions lose particles on the upper edge (C09); converting a mask between two `union=True` calls loses
  particles (C12); counts of cells are wrong with duplicated offsets and can be negative (C17, C18);
* fields stored with different chunking can be misaligned for out-of-order masks (C20);
* a subset of a subset file with empty datasets cannot be written (C22); links inside groups, attributes of particle
  groups, fields whose path has one of the writer's words in it and files with other datasets are lost or refused (C74);
* arithmetic between arrays that cannot all be converted gives wrong values (C27); equality of scale factors is not
  symmetric (C30); compression labels become nested pairs (C49); conversion in place reaches arrays that share memory
  (C50); re-wrapping lifts the protection of arrays that must not be converted (C51);
* lists of arrays and quantities made from quantities are relabelled instead of converted, `bypass_validation` with a scale
  factor fails, `from_astropy` and `from_pint` ignore `valid_transform=False` (C86); a refused conversion in place leaves the
  new unit (C87);
* exponent zero is read back as missing (C33); arrays changed after they were given to the writer are written changed
  (C52); physical box sizes are written unconverted (C53); an empty particle type truncates the file (C54);
* colliding field and column names shadow each other (C34, C57); deeper SOAP paths get wrong group names (C58);
* handles stay open on some errors (C35);
* threaded volumes with fewer voxels along z fail (C36); kernels wider than the box and `scatter_limited_z` lose copies
  (C37); renormalised projections can deposit too much (C40); slices and volumes lose the upper edge of kernels (C41);
* projections of regions that are not square are normalised wrongly, fields without a comoving flag not at all; periodic
  pictures wrap the coordinates of the dataset in place (C43); an empty depth selects everything (C42);
* a vector along the axis is turned into a reflection (C45); colour maps read out of bounds and have their axes exchanged
  (C47, C60) and average hues as numbers (C85); positions converted to physical are folded with the comoving box (C61); tiny regions need not be cubic (C63).
* wrapped numpy functions: variances, Fourier transforms, einsum, determinants of stacks and masked products carry wrong
  labels (C65); concatenation does not compare labels, select, choose and block give arrays that cannot be converted
  (C66); physical output arrays are relabelled without being written (C67); sums of weights and reductions with an initial
  value are wrong in mixed coordinates (C68); weighted densities have the label of the weights as well (C69).
* power spectra of boxes that are not cubes use the first side for all modes (C70); spectra of several foldings carry the
  inverse label of a volume (C72);
* statistics files: one blank before the names gives an attribute `_step`; columns of one name share a unit; without a
  header the last line gives the names (C75); a blank last line is a row of zeros and the first row fixes the types (C76);
* metadata: counts stored as one number are read as 0 (C77); a type that can be there without a group, or a ninth type,
  makes a file unreadable, and nested groups are taken for fields (C78); mappings whose names have `To` inside or whose
  columns are not named make a file unreadable (C79); attributes of lines of sight hide fields of the same name (C80);
* the reference projection drops unresolved particles; the subsampled ones count the mass of tiny particles just below
  the upper edge of a periodic box more than once (C91);
* `render_voxels_to_array` writes outside of its image unless the grid is square; an unset norm that is passed to
  `visualise_render` takes its limits from the first image only (C92);
* `floor`, `ceil`, `trunc`, `modf`, `heaviside`, `divmod` and, of arrays that scale differently, `floor_divide` round
  comoving numbers but keep the label; `multiply.reduce` and `divide.reduce` without `axis` count all elements although
  numpy reduces the first axis only; `add.reduce` does not check the label of `initial`; `x.clip(lo, hi)` always fails (C93);
* masks of SOAP catalogues with bounding boxes in the file cannot select a region (C90);
* texts about code and schemes need attributes stored as bytes (C88); swiftsnap stops in the middle of its report about a
  catalogue (C89);
* neutrinos: fewer masses than degeneracies or negative degeneracies give a wrong number of masses, and massive ones
  without `N_ur` make a file unreadable (C82);
* the projection kernel holds 1.00000085 particles (C83) and is two percent narrower than that of volumes (C84).
* `apply_over_axes` drops summed axes, so that later axes mean others, and refuses most lists of all axes (C97); `sinc` and
  `savetxt` look at the stored numbers only (C98); masks cannot be copied or pickled (C99); boolean arrays taken from a mask follow
  it (C101); a mask of just the region of a picture is not enough for the picture (C102, C104, C140); histograms of anything
  need masses (C103); mixed arguments of which one must not be converted go to numpy as they are (C94); quantities stay
  quantities when they get axes (C95); the order of scale factors does not fit their equality (C96);
* structures inside structures with fields of both byte orders come out wrong, and chunked datasets of the other byte
  order cannot be read with a mask where numba is installed (C105); the label of a field depends on whether a mask was
  used, and SOAP selections stored as bytes make a field unreadable (C106);
  letters are taken for numbers in the attributes of a field (C106); an extra header can hide particles or make a file
  unreadable (C107); masses are accepted as IDs and boxes of another scale factor are accepted (C108);
  velocities and energies written with the default units of the writer are read back too large by two and four parts in
  a million, because the unit of time is rounded to five figures (C109);
  the number of groups in the header of a FOF subset is that of the whole catalogue, and a particle type of which
  nothing was selected is missing from subsets of files without CanHaveTypes (C110);
  `deposit` writes behind its array for some positions at the edge of the box, and a value that is not a number is looked
  up outside of the colour map (C112); of regions around the edge of the box that begin in its lower half a particle can
  be lost to rounding (C113); arrays of integers cannot be converted in place (C114); the image of `scatter_parallel` depends on how its threads are scheduled (C115); snapshots of the writer cannot be masked (C107); rows that a catalogue does not have are read as its last row, or from outside of the buffer (C116); one-row ranges that do not fit a buffer are lost (C02); masked reads of datasets with three axes and subsets of datasets of shape (n, 1) fail (C117); chunk indices of 32 bits wrap around for more than 2^31 chunk ranges (C119); a particle without extent in the plane of a slice, or a `res_ratio_z` above the resolution, raises ZeroDivisionError (C121); whether a tiny region counts as a cube depends on the frame of the coordinates (C122); a volume of an empty region is made without an error and has no numbers in it, and exchanged limits give negative densities or, for slices, a picture in serial and an error in parallel (C123); particles outside of the region fill the pixels of nearest-neighbour slices, so masked datasets can give other slices (C124); a projection with a depth of the whole box can lose nearly all particles when the remainders of its limits are rounded (C125); slices can have one pixel more per side than the resolution, because the product with the range is rounded before the division (C126); the frame of a histogram's range given as a pair of quantities is ignored (C128); power spectra and colour maps need packages that are called optional (C129); fields with named columns of different groups are equal (C130); `histogramdd` with density ignores the frames of its ranges (C131); the default padding of masks is a tenth of a cell, not a cell as the text of `mask` says (C132); the kernels can be positive at the edge of their support, where the exact ones vanish (C133); a map of a constant temperature can be above it (C136); the identity matrix moves coordinates around a centre (C137); `intersect=True` selects the union (C139); long vectors flip the axis of a rotation whatever their direction, short ones make NaN (C141); fields with columns cannot be constrained, arrays of bounds are counted along the selected particles (C142).
