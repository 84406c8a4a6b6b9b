{"id": "C01", "title": "Pixel index and coordinate are inverse to each other", "statement": "For a pixel grid constructed from its extents (column-major), or from strides that are accepted as contiguous (fewer than 2^31 pixels), asking for the coordinate of an index and then for the index of that coordinate gives the index back, and asking for the index of an in-grid coordinate and then its coordinate gives the coordinate back; this holds for every dense stride order and for every sub-domain location offset.", "quantifier": "all grids of any dimension with positive extents, all dense stride orders, all locations, all in-grid coordinates and all indices below the volume", "why_tests_cant": "A test picks a few 2D/3D shapes; the law must hold for every extent, every stride permutation and every offset, including degenerate extents of 1 where stride ties occur.", "anchors": ["src/libmugrid/ccoord_operations.hh: get_ccoord, get_ccoord_from_strides, get_ccoord_from_axes_order, get_index_from_strides, DynamicPixels::get_index, DynamicPixels::get_ccoord"]}
{"id": "C02", "title": "Pixel enumeration visits every grid point exactly once", "statement": "Iterating over the pixels of a contiguous grid yields each grid coordinate of the sub-domain exactly once, in increasing index order, and enumerate() pairs each coordinate with its own index.", "quantifier": "all contiguous grids, all dimensions, all sub-domain locations", "why_tests_cant": "Exactly-once is a statement about the whole (unbounded) set of coordinates of arbitrarily large grids.", "anchors": ["src/libmugrid/ccoord_operations.hh: DynamicPixels::iterator, DynamicPixels::Enumerator, DynamicPixels::size"]}
{"id": "C03", "title": "The contiguity verdict is sound, and exact for extents of at least two", "statement": "If a grid with given strides (fewer than 2^31 pixels) is reported as contiguous then distinct grid points have distinct buffer positions and these positions are exactly 0 .. volume-1; for extents of at least two the converse holds as well; column-major grids of any positive extents are always reported as contiguous.", "quantifier": "all shapes and stride vectors of equal length", "why_tests_cant": "Both directions range over every shape/stride combination; the failure (extents of 1 between others) is a tie-breaking corner case no example-based test in the suite contains.", "anchors": ["src/libmugrid/ccoord_operations.hh: is_buffer_contiguous, compute_axes_order, get_col_major_strides, get_row_major_strides"]}
{"id": "C04", "title": "The computed buffer size covers every addressable grid point", "statement": "The buffer size computed from shape and strides is strictly larger than the buffer position of every in-grid coordinate, for every (possibly padded) nested stride layout; and it is tight for dense layouts.", "quantifier": "all shapes with positive extents and all stride vectors that nest (every stride exceeds the largest offset reachable along the faster axes)", "why_tests_cant": "A single uncovered coordinate is a heap overrun; the claim is about all coordinates of all shapes.", "anchors": ["src/libmugrid/ccoord_operations.hh/.cc: get_buffer_size, get_index_from_strides"]}
{"id": "C05", "title": "Periodic wrapping lands in the box and preserves congruence", "statement": "The periodic modulo of any integer (also negative) with a positive period lies in [0, period) and differs from the argument by a multiple of the period; it is idempotent and compatible with addition.", "quantifier": "all integers and all positive periods", "why_tests_cant": "C++ remainder of negative numbers is sign-dependent; a law over all integers cannot be sampled.", "anchors": ["src/libmugrid/ccoord_operations.hh: modulo"]}
{"id": "C06", "title": "Element counts computed from a shape are exact or overflow 32-bit arithmetic", "statement": "The number of elements computed from a shape equals the mathematical product whenever every partial product fits in a signed 32-bit integer; beyond this bound the computed number is wrong although the return type is 64-bit.", "quantifier": "all shapes", "why_tests_cant": "Allocating multi-gigabyte shapes in a unit test is not feasible and the exact boundary is a statement over all shapes.", "anchors": ["src/libmugrid/grid_common.hh: get_nb_from_shape", "src/libmugrid/raw_memory_operations.hh: prod"]}
{"id": "C07", "title": "Strided copy transfers every element and nothing else", "statement": "After copying an array between two stride layouts, every logical element is found at its output position, and every output cell that is not the position of a logical element still holds its old value, whatever the relative order of the strides.", "quantifier": "all shapes with positive extents and fewer than 2^31 elements, all input strides, all injective output stride layouts, all buffer contents", "why_tests_cant": "The traversal order depends on sorting the strides and on carry propagation in a mixed-radix counter; correctness for every shape and stride order is not testable by example.", "anchors": ["src/libmugrid/raw_memory_operations.hh/.cc: strided_copy, CartesianContainer"]}
{"id": "C08", "title": "Layout conversion round-trips", "statement": "Copying a multi-dimensional array from one injective layout to another and back restores every logical element.", "quantifier": "all shapes with positive extents and fewer than 2^31 elements, all pairs of injective layouts, all contents", "why_tests_cant": "Quantifies over all contents and all pairs of layouts.", "anchors": ["src/libmugrid/raw_memory_operations.hh: strided_copy"]}
{"id": "C09", "title": "Sub-point view of a field addresses each scalar exactly once and in bounds", "statement": "For a field with component shape s, n sub-points and a dense grid, the (component, sub-point, pixel) strides reported by the field map distinct multi-indices to distinct buffer offsets smaller than the number of scalars stored, in both column-major and row-major storage order.", "quantifier": "all component shapes with positive extents and fewer than 2^31 components, positive sub-point counts, all grids of positive extents in both storage orders, nested padded pixel strides, and local collections", "why_tests_cant": "Aliasing or overrun may occur for a single combination of extents; the combinations are unbounded.", "anchors": ["src/libmugrid/field.cc: get_strides, get_sub_pt_strides, get_components_strides, get_shape", "src/libmugrid/field_collection_global.cc: initialise"]}
{"id": "C10", "title": "Pixel view of a field describes the same scalars as the sub-point view", "statement": "In column-major storage with a non-empty component shape, and in both storage orders with one sub-point per pixel, the shape and strides reported for per-pixel iteration have equal rank and map distinct multi-indices to distinct buffer offsets, covering exactly the scalars of the per-sub-point view; entry x + b*q of the last axis is component x at sub-point q.", "quantifier": "all component shapes, all sub-point counts, both storage orders", "why_tests_cant": "The violation needs a specific combination (row-major, several components and several sub-points) and is a statement about aliasing of whole index sets.", "anchors": ["src/libmugrid/field.cc: get_strides, get_sub_pt_strides, get_sub_pt_shape, get_shape"]}
{"id": "C11", "title": "Reshape keeps the stored scalars and the iteration consistent", "statement": "Reshaping a field succeeds exactly when the number of degrees of freedom per pixel (or, without a new sub-division, of components) is unchanged, is rejected otherwise, and keeps the pixel layout and the number of stored scalars; the reshaped field again addresses each scalar at most once and in bounds.", "quantifier": "all fields, all component shapes with positive extents and fewer than 2^31 components, all sub-point counts", "why_tests_cant": "Needs a history (register, initialise, reshape, map) with arbitrary shapes; the stale entry counter only shows when sub-point numbers change.", "anchors": ["src/libmugrid/field.cc: reshape", "src/libmugrid/field_map.cc: size"]}
{"id": "C12", "title": "Fields reported to have the same memory layout address scalars identically", "statement": "If two fields with the same number of components are reported to have the same memory layout then their component shapes, shapes and strides coincide, so a given logical index lies at the same offset in both; fields with identical parameters are reported to have the same layout.", "quantifier": "all pairs of fields", "why_tests_cant": "A universally quantified implication over pairs of layouts; a counterexample needs two collections that differ only in component count.", "anchors": ["src/libmugrid/field.cc: has_same_memory_layout", "src/libmugrid/field_collection.cc: has_same_memory_layout"]}
{"id": "C13", "title": "Assigning a field copies every logical value across storage orders", "statement": "After assigning to a field of a global collection another field of equal shape, each logical (component, sub-point, pixel) value of the destination equals that of the source, for every combination of storage orders and paddings of the two fields, and nothing outside the logical values of the destination changes; a shape mismatch is rejected and leaves the destination unchanged. The same holds for fields of local collections with equal layout.", "quantifier": "all field contents, all shapes with fewer than 2^31 scalars, all pairs of storage orders", "why_tests_cant": "Quantifies over contents and layouts of both operands.", "anchors": ["src/libmugrid/field_typed.cc: TypedFieldBase::operator=", "src/libmugrid/raw_memory_operations.hh: strided_copy"]}
{"id": "C14", "title": "In-place addition and subtraction of fields are pointwise on logical values", "statement": "After a += b, a -= b or a = -b for fields of equal shape and layout in a collection without padding, every logical value of a is the sum, difference or negative of the former logical values of a and b, and the pad region is unchanged.", "quantifier": "all contents, shapes, scalar operations, both storage orders", "why_tests_cant": "The operation works on the raw buffer; pointwise correctness is a claim for every layout pair.", "anchors": ["src/libmugrid/field_typed.cc: operator+=, operator-=, eigen_vec"]}
{"id": "C15", "title": "Registered names stay unique and keep designating the same field", "statement": "In every history of operations on a collection a name designates at most one field; registering a fresh name makes exactly that field retrievable with exactly the requested type, shape, sub-division and unit and leaves all other entries alone; registering an existing name changes nothing and succeeds exactly when re-registration is allowed and type, components, sub-division and unit agree; removing a name removes only this name; operations on one field leave every other field untouched.", "quantifier": "all operation histories on a field collection", "why_tests_cant": "An invariant over all operation sequences.", "anchors": ["src/libmugrid/field_collection.hh/.cc: register_field_helper, get_field, pop_field, field_exists"]}
{"id": "C16", "title": "The number of sub-points of a sub-division is write-once", "statement": "Once the number of sub-points of a sub-division tag has been set, no sequence of calls changes it, every field carrying the tag reports this number, and the pixel tag always means one point per pixel.", "quantifier": "all operation histories from the construction of a collection, all tags and numbers", "why_tests_cant": "Invariant over all call sequences.", "anchors": ["src/libmugrid/field_collection.cc: set_nb_sub_pts, get_nb_sub_pts, has_nb_sub_pts"]}
{"id": "C17", "title": "Every field of an initialised collection has exactly the storage its attributes demand", "statement": "In every reachable state of an initialised collection, each field has positive numbers of sub-points and components, holds nb_buffer_pixels x nb_sub_pts x nb_components scalars plus its pad, and its data pointer is current; registering a field before or after initialisation yields the same entry; a field of an uninitialised collection exposes neither a size nor a data pointer through views and maps.", "quantifier": "all histories of registrations with positive component counts, sub-division settings, initialisations, reshapes, writes, non-negative pad sizes set after initialisation and pushes before initialisation", "why_tests_cant": "Invariant over all call orders, including registration after initialisation.", "anchors": ["src/libmugrid/field_collection.cc: allocate_fields, initialise_maps", "src/libmugrid/field_typed.cc: resize, set_pad_size", "src/libmugrid/field.cc: get_nb_entries"]}
{"id": "C18", "title": "A collection is initialised at most once and a rejected initialisation does not initialise", "statement": "Initialising a collection twice is always rejected without effect, and no history changes the pixels of an initialised collection; a rejected initialisation leaves the collection uninitialised with the same names, tags and pixel list, and has no effect at all when there are no fields; a local collection accepts initialisation exactly when every field knows its number of sub-points and is empty or completely filled.", "quantifier": "all histories", "why_tests_cant": "Failure atomicity has to hold at every failing point of the initialisation sequence.", "anchors": ["src/libmugrid/field_collection_global.cc: initialise", "src/libmugrid/field_collection_local.cc: initialise"]}
{"id": "C19", "title": "Generated field names are always fresh", "statement": "The unique-name generator terminates and returns a name that no field of the collection carries, whatever names are present.", "quantifier": "all sets of existing names", "why_tests_cant": "Adversarial name sets are unbounded; termination cannot be tested.", "anchors": ["src/libmugrid/field_collection.cc: generate_unique_name"]}
{"id": "C20", "title": "Local collections preserve insertion order and fill", "statement": "A local collection iterates over its pixels in the order they were added, and the values pushed to a field belong to the corresponding pixel and sub-point.", "quantifier": "all interleavings of add_pixel, pushes to the field and other operations that do not address the field, in column-major local collections, all component shapes and sub-point counts", "why_tests_cant": "All interleavings of pushes over several fields.", "anchors": ["src/libmugrid/field_collection_local.cc: add_pixel, initialise", "src/libmugrid/field_typed.cc: push_back"]}
{"id": "C21", "title": "Sub-point index iteration is exact", "statement": "Iterating over the sub-point indices of a collection yields pixel_index*nb_sub_pts + offset for each pixel in collection order and each offset in 0..nb_sub_pts-1, without repetition when the pixels are distinct; in an initialised collection its length is the reported size, and in a global collection the indices are 0, 1, 2, ... in order.", "quantifier": "all collections, all positive sub-point counts", "why_tests_cant": "Exactly-once over unbounded sets; the iterator is a hand-written odometer.", "anchors": ["src/libmugrid/field_collection.hh: IndexIterable, IndexIterable::iterator"]}
{"id": "C22", "title": "State fields replay history", "statement": "For state fields whose number of states nb_memory + 1 is a power of two: after any sequence of writes, cycles and operations that do not name its sub-fields, old(k) returns the values that were current k cycles ago, for each 1 <= k <= nb_memory; current and old states never alias each other or the states of other state fields; cycling moves no stored value and nothing but a write to current changes any stored value; asking for more than nb_memory steps is refused. Registration creates exactly nb_memory + 1 sub-fields with the attributes asked for; registering an existing prefix changes nothing.", "quantifier": "all memory depths with nb_memory + 1 a power of two, all histories of writes, cycles and other operations on an initialised collection", "why_tests_cant": "Quantifies over histories of any length and over every memory depth; the violation appears only for depths whose successor is not a power of two.", "anchors": ["src/libmugrid/state_field.cc: StateField::StateField, cycle, current, old"]}
{"id": "C23", "title": "State-field maps and state fields agree at all times", "statement": "A state-field map obtained at any time, also before the collection is initialised, yields at entry i, for current and for each old(k), the scalars of the state field's current and old(k) fields at that entry, also after cycling and writing; the iterates of the map hold the same values and refuse steps beyond the memory.", "quantifier": "all histories of writes, cycles and operations that do not name the sub-fields, all memory depths, entries and k", "why_tests_cant": "Agreement after arbitrary interleavings of cycle and map access.", "anchors": ["src/libmugrid/state_field_map.cc/.hh", "src/libmugrid/state_field_map_static.hh"]}
{"id": "C24", "title": "Field maps partition the stored scalars", "statement": "A field map of a collection without padding iterates over exactly the stored scalars: iterate i is the i-th block of stride scalars in column-major order and holds the logical values of its pixel or sub-point, distinct iterates never overlap, all iterates together cover the whole field, a non-zero number of rows that does not divide the stride is rejected, row-major fields are rejected, and combining one matrix with the map changes each entry accordingly and nothing else.", "quantifier": "all fields, all row counts, both iteration units", "why_tests_cant": "Disjoint cover over unbounded sizes; the row-divisor check must reject exactly the non-divisors.", "anchors": ["src/libmugrid/field_map.cc: FieldMap, size, set_data_ptr", "src/libmugrid/field_map.hh: operator[], iterator"]}
{"id": "C25", "title": "Sum and mean of a map are the sum and mean over all entries", "statement": "The sum of a field map equals the component-wise sum over all entries of the field and the mean is this sum divided by the number of entries; an empty rank-local field yields zero.", "quantifier": "all fields without padding, contents, row counts, scalar operations", "why_tests_cant": "Quantifies over all contents.", "anchors": ["src/libmugrid/field_map.cc: sum, mean"]}
{"id": "C26", "title": "Unit exponents are always in lowest terms with positive denominator", "statement": "Every unit exponent reachable by constructing, multiplying, dividing, adding and subtracting exponents from explicit numerators and denominators, as long as no int product overflows, is in lowest terms with a positive denominator, so two exponents compare equal exactly when they denote the same rational number; products and quotients denote sums and differences; a zero denominator is rejected; operands up to 32767 never overflow.", "quantifier": "all integers and all expression trees of exponent operations", "why_tests_cant": "Normal form over all expression trees.", "anchors": ["src/libmugrid/units.cc: UnitExponent, reduce, operator*, operator/, operator=="]}
{"id": "C27", "title": "The greatest common divisor is computed correctly and terminates", "statement": "The gcd routine terminates for all pairs of ints (other than the smallest int, whose absolute value is undefined) and returns the greatest common divisor of their absolute values.", "quantifier": "all pairs of ints except INT_MIN", "why_tests_cant": "Recursion depth and result for all pairs.", "anchors": ["src/libmugrid/units.cc: compute_gcd, compute_gcd_worker"]}
{"id": "C28", "title": "Physical units form a commutative group per tag", "statement": "Multiplication of units is associative and commutative, unitless is neutral, dividing undoes multiplying, and mixing tags is always rejected.", "quantifier": "all units and tags, as long as the int products of the exponents do not overflow (never for exponents up to 32767)", "why_tests_cant": "Algebraic laws for all values.", "anchors": ["src/libmugrid/units.cc: Unit::operator*, operator/, check_tags"]}
{"id": "C29", "title": "Only equal units can be added or subtracted", "statement": "Addition or subtraction of two units succeeds exactly when the units are equal, and then returns that unit.", "quantifier": "all pairs of units", "why_tests_cant": "An if-and-only-if over all pairs.", "anchors": ["src/libmugrid/units.cc: Unit::operator+, operator-"]}
{"id": "C30", "title": "Units and physics domains are strictly and totally ordered", "statement": "The ordering of units is a strict total order compatible with equality, and so is the ordering of physics domains up to their display name; hence they can be used as keys of ordered maps.", "quantifier": "all triples of units / domains whose exponents are at most 32767; for larger ones, whenever the comparison is defined", "why_tests_cant": "Transitivity and totality over all triples; rational comparison multiplies numerators and denominators.", "anchors": ["src/libmugrid/units.cc: operator<", "src/libmugrid/physics_domain.cc: operator<, operator=="]}
{"id": "C31", "title": "Dictionaries never silently overwrite and never mix up types", "statement": "Adding a key that exists is rejected and changes nothing; adding a new key makes exactly this key retrievable with exactly the added value (a nested dictionary is shared) and keeps every other value readable as before; a typed getter succeeds exactly on its own type; copies of a dictionary handle and handles to entries observe each other's changes; failing calls leave everything unchanged; nothing is undefined unless a moved-from handle is used or a matrix is assigned to the entry it is read from; a Python dictionary of strings to integers of 32 bits, floats, matrices and such dictionaries is converted to a dictionary with the same nested keys and values, and every other Python dictionary is refused.", "quantifier": "all dictionaries (nested, shared, cyclic) and all operation sequences, all nested Python dictionaries", "why_tests_cant": "Aliasing through shared nodes makes this a property of whole heaps and histories.", "anchors": ["src/libmugrid/options_dictionary.cc: add, get_value, get_int, get_real, get_matrix, operator="]}
{"id": "C32", "title": "The discrete gradient is linear and translation-equivariant", "statement": "For every discretisation whose nodes lie in the pixel and its direct successors, the gradient at every quadrature point is the sum of shape function derivatives times the nodal values at the periodically wrapped pixels. Applying the operator to a linear combination of nodal fields gives the linear combination of the gradients, shifting the nodal field periodically shifts the gradient by the same amount, apply_gradient overwrites its output and apply_gradient_increment adds alpha times the gradient.", "quantifier": "all nodal fields, coefficients, shifts, stencils of dimension 1 to 3, all grids that start at the origin", "why_tests_cant": "All fields and shifts.", "anchors": ["src/libmugrid/gradient_operator_default.cc: apply_gradient, apply_gradient_increment"]}
{"id": "C33", "title": "The transpose operator is the adjoint of the gradient", "statement": "For every nodal field u and quadrature field g, the inner product of the gradient of u with g equals the inner product of u with the transpose operator applied to g without weights; with equal weights it is multiplied by the weight.", "quantifier": "all nodal and quadrature fields, all grids, all stencils", "why_tests_cant": "An identity over all pairs of fields; it fails only for unequal weights.", "anchors": ["src/libmugrid/gradient_operator_default.cc: apply_transpose, apply_transpose_increment"]}
{"id": "C34", "title": "Gradient of a constant field vanishes", "statement": "If every row of the local gradient stencil sums to zero over the nodes then the gradient of every constant nodal field is zero everywhere, also across the periodic boundary.", "quantifier": "all grids, constants and consistent stencils", "why_tests_cant": "Periodic wrap at every pixel of every grid.", "anchors": ["src/libmugrid/gradient_operator_default.cc: apply_gradient_increment"]}
{"id": "C35", "title": "Wrapping a numpy array exposes the same elements", "statement": "A field made from a numpy array without copying has, at every component, sub-point and pixel index, the array's element at that index. This holds for arrays in C or Fortran order and their permutations within components and within pixels, with padding, where the second component axis follows the first in the same direction as pixels follow components; and for any array with strides in whole items when the field reports an unknown storage order. Arrays whose shape does not fit are refused; every array in Fortran order is accepted.", "quantifier": "all array shapes, item sizes and byte strides of the kinds named, both constructors, all outcomes of unstable sorting", "why_tests_cant": "Stride patterns (slices, transposes, Fortran/C mixtures) are unbounded.", "anchors": ["src/libmugrid/numpy_tools.hh: detect_storage_order, NumpyProxy, numpy_wrap"]}
{"id": "C36", "title": "Frame addressing in files is safe", "statement": "A frame handle is obtained for existing frames only, apart from the index equal to the number of frames (C67); negative indices count from the end, appended frames get consecutive numbers, handles keep denoting their frame, iteration visits all frames once, and every read or write outside the existing frames throws before any data is transferred.", "quantifier": "all integers as index, all append histories", "why_tests_cant": "All histories and all integers.", "anchors": ["src/libmugrid/file_io_base.cc: operator[], append_frame, begin, end", "src/libmugrid/file_io_base.hh: FileIOBase::iterator", "src/libmugrid/file_io_netcdf.cc: handle_frame, get_start_global, get_start_local"]}
{"id": "C37", "title": "Dimension names determine their kind", "statement": "For every field that can be registered in a file, the kind (base name) recovered from each of its dimension names is the kind the name was built from, the number recovered from a component axis is its position, and dimensions of variables with different names share a name only if they have the same length.", "quantifier": "all field names, tags, component shapes, sub-point counts and histories; global and local fields", "why_tests_cant": "All strings as field names.", "anchors": ["src/libmugrid/file_io_netcdf.cc: compute_dim_name, compute_base_name, compute_tensor_dim_index"]}
{"id": "C38", "title": "Global fields survive a write/read cycle under any domain decomposition", "statement": "Writing a frame of a global field or state field distributed over one decomposition of the domain puts every value at the place of its index in the file, and reading it back with any other decomposition, storage order and memory layout returns each logical value unchanged, whatever is written in between to other frames, variables or entries of the history.", "quantifier": "all fields that can be registered, decompositions, storage orders, frames, contents", "why_tests_cant": "Number and shape of sub-domains are unbounded.", "anchors": ["src/libmugrid/file_io_netcdf.cc: get_start_global, get_count_global, get_nc_imap_global, NetCDFVarBase::write, read"]}
{"id": "C39", "title": "Local fields survive a write/read cycle", "statement": "Writing a local field and reading it back into a local collection on the same pixels, distributed in any way, returns for every pixel the value written for this pixel, if all collections list their pixels in increasing order of their position in the sub-domain, or if the reader has the sub-domain and the list of pixels of a writer.", "quantifier": "all pixel sets, decompositions of writers and readers, contents; sorted pixels, or any order for the same process", "why_tests_cant": "All pixel orders and distributions; the violation appears only for unsorted or differently ordered pixels.", "anchors": ["src/libmugrid/file_io_netcdf.cc: register_lfc_to_gfc_local_pixels, get_start_local, write, read"]}
{"id": "C40", "title": "Zipped and enumerated ranges stop with the shortest and pair positions correctly", "statement": "Zipping containers yields exactly the tuples of elements at equal positions up to the shortest length; enumerating a container from zero pairs every element with its position, also when zipped with another; an arithmetic range whose bound lies on the side of its step visits start, start+step, ... before the bound, and its size and element access agree with that.", "quantifier": "all container lengths, all starts and stops, all non-zero steps towards the bound", "why_tests_cant": "Termination and exactness for all lengths.", "anchors": ["src/libmugrid/iterators.hh: zip, enumerate, arange"]}
{"id": "C41", "title": "Fourth-rank tensor algebra obeys its index definitions", "statement": "Outer products, single and double contractions and the identity, transposition, symmetrisation and trace tensors act on every second-rank tensor as their names and index formulas say, for every dimension; the double contraction is associative and component access in a fourth-rank tensor is one-to-one. tensmult compiles for no other shapes than a matrix with a vector and a fourth-rank with a second-rank tensor.", "quantifier": "all dimensions and all tensors", "why_tests_cant": "Polynomial identities in all entries.", "anchors": ["src/libmugrid/tensor_algebra.hh", "src/libmugrid/T4_map_proxy.hh: get"]}
{"id": "C42", "title": "Push-forward and pull-back are mutually inverse and composable", "statement": "In two or more dimensions, pulling back a pushed-forward tensor of rank 1, 2 or 4 with the same invertible transformation returns the tensor, and so does pushing forward a pulled-back one; successive push-forwards compose to the push-forward with the product of the transformations; every component of the result is the sum over components given by the index formula.", "quantifier": "all dimensions from two on, all tensors and invertible transformations, any commutative ring of scalars", "why_tests_cant": "Identities over all matrices.", "anchors": ["src/libmugrid/tensor_algebra.hh: AxisTransform::push_forward, pull_back"]}
{"id": "C43", "title": "The matrix logarithm and exponential have the right eigen-structure", "statement": "For a matrix with pairwise distinct eigenvalues logm gives a matrix that maps each eigenvector to itself times the logarithm of its eigenvalue, which determines it. logm_alt and expm do the same for repeated eigenvalues, give the same result for every decomposition the solver may return, agree with logm, and expm undoes logm_alt.", "quantifier": "all dimensions, matrices and spectral decompositions", "why_tests_cant": "Identity over all matrices; coincident eigenvalues are the hidden failing case.", "anchors": ["src/libmugrid/eigen_tools.hh: logm, log_comp::Proj, Summand, Sum"]}
{"id": "C44", "title": "Rank-ordered gather and offsets partition the global data", "statement": "Gathering per-rank matrices stored contiguously yields the columns of all arguments in rank order on every rank for any distribution of sizes (including empty ranks) below 2^31 elements in total; matrix sums are entry by entry; scalar sum, maximum, broadcast and logical reductions give every rank the sum, the greatest argument, the argument of the root, the conjunction and the disjunction; the offsets derived from the cumulative sum assign disjoint consecutive ranges that cover all entries; a build without MPI behaves like one process.", "quantifier": "all numbers of ranks, all local sizes and contents", "why_tests_cant": "All distributions of sizes over arbitrarily many ranks.", "anchors": ["src/libmugrid/communicator.hh: gather, cumulative_sum, sum", "src/libmugrid/file_io_netcdf.cc: register_lfc_to_gfc_local_pixels"]}
{"id": "C45", "title": "Compile-time square root returns the integer root", "statement": "For every perfect square up to 92680 the compile-time square root terminates and returns the exact root, and a spatial dimension is derived from a fourth-order tensor exactly if its matrix is square with a square number of rows.", "quantifier": "all integers from 1 to 92680", "why_tests_cant": "Recursion over an unbounded domain.", "anchors": ["src/libmugrid/eigen_tools.hh: ct_sqrt"]}
{"id": "C46", "title": "A physics domain is reported inconsistent exactly when its units do not multiply to an energy density", "statement": "Constructing a physics domain prints the inconsistency warning exactly when the product of input and output unit is not an energy density, whatever the tag of the units.", "quantifier": "all ranks, units and tags", "why_tests_cant": "All units and tags; tests use tag 0 only.", "anchors": ["src/libmugrid/physics_domain.cc: PhysicsDomain::PhysicsDomain, mechanics", "src/libmugrid/units.cc: operator*, stress"]}
{"id": "C47", "title": "The index/coordinate inverse law and the contiguity verdict also hold for degenerate extents", "statement": "Every grid the pixel constructor accepts (row-major grids, extents of one, padded and arbitrary injective strides) satisfies the index/coordinate inverse law, and every grid whose positions fill 0 .. volume-1 is reported as contiguous, independently of the standard library's sort.", "quantifier": "all shapes with positive extents, all injective stride vectors, all sort implementations", "why_tests_cant": "Extents of one create ties between strides whose order an unstable sort may choose; tests use a single standard library.", "anchors": ["src/libmugrid/ccoord_operations.hh: DynamicPixels, is_buffer_contiguous, compute_axes_order", "src/libmugrid/ccoord_operations.cc"]}
{"id": "C48", "title": "The pixel view of a field never aliases, whatever storage order and component shape", "statement": "The shape and strides reported for per-pixel iteration have equal rank and map distinct multi-indices to distinct buffer offsets for every storage order, component shape and number of sub-points.", "quantifier": "all fields", "why_tests_cant": "Needs all shapes; the existing tests only print strides of small column-major fields.", "anchors": ["src/libmugrid/field.cc: get_strides, get_sub_pt_strides, get_sub_pt_shape"]}
{"id": "C49", "title": "The same-layout verdict implies equal storage for all pairs of fields", "statement": "If two fields are reported to have the same memory layout then a given logical index lies at the same offset in both, whatever their component counts.", "quantifier": "all pairs of fields", "why_tests_cant": "Pairs of fields with unrelated component shapes cannot be enumerated.", "anchors": ["src/libmugrid/field.cc: has_same_memory_layout"]}
{"id": "C50", "title": "Assignment copies logical values whatever the destination", "statement": "Assigning a field to another field of equal shape copies each logical value, and a mismatch of shapes is rejected, for destinations in local collections as well.", "quantifier": "all pairs of fields", "why_tests_cant": "Needs all combinations of collections, layouts and shapes.", "anchors": ["src/libmugrid/field_typed.cc: TypedField::operator="]}
{"id": "C51", "title": "In-place arithmetic is pointwise for all storage orders and paddings", "statement": "After a += b for fields of equal shape every logical value of a is the sum of the former logical values, whatever the storage orders of the two fields and the pixel strides of their collections.", "quantifier": "all pairs of fields of equal shape", "why_tests_cant": "Needs all pairs of layouts.", "anchors": ["src/libmugrid/field_typed.cc: operator+=, operator-=, eigen_vec"]}
{"id": "C52", "title": "A per-pixel map visits every pixel also in padded collections", "statement": "Iterating over a per-pixel map yields the values of each pixel exactly once, whatever the pixel strides of the collection.", "quantifier": "all collections and pixel strides", "why_tests_cant": "Needs all strides; tests use contiguous pixels.", "anchors": ["src/libmugrid/field_map.cc: size, begin, end; field_map.hh: operator[]"]}
{"id": "C53", "title": "Field maps are created with positive row and column counts only", "statement": "Creating a field map with a row count that is not a positive divisor of the scalars per entry is rejected.", "quantifier": "all row counts", "why_tests_cant": "Row counts are unbounded.", "anchors": ["src/libmugrid/field_map.cc: FieldMap constructor"]}
{"id": "C54", "title": "Field maps stay exact across reshaping and padding of their field", "statement": "After a field is reshaped or its pad size is changed, field maps iterate over exactly the entries of the field.", "quantifier": "all fields, shapes, sub-point counts and pad sizes", "why_tests_cant": "Needs all sequences of layout changes and map creation; a dangling pointer usually goes unnoticed.", "anchors": ["src/libmugrid/field.cc: reshape; field_typed.cc: set_pad_size, resize; field_map.cc: size, set_data_ptr"]}
{"id": "C55", "title": "Pushing an array stores its coefficients", "statement": "push_back of any array expression with as many coefficients as the field has components stores these coefficients in column-major order.", "quantifier": "all array expressions, including blocks of larger arrays", "why_tests_cant": "Needs all outer strides.", "anchors": ["src/libmugrid/field_typed.cc: push_back, push_back_single"]}
{"id": "C56", "title": "A rejected initialisation has no effect", "statement": "An initialisation that is rejected leaves the collection and all its fields as they were, so that it can be completed and repeated.", "quantifier": "all collections, all rejected initialisations", "why_tests_cant": "Depends on the history of the collection and on the alphabetical position of the offending field.", "anchors": ["src/libmugrid/field_collection.cc: allocate_fields", "src/libmugrid/field_collection_local.cc: initialise", "src/libmugrid/field_collection_global.cc: initialise"]}
{"id": "C57", "title": "A pad size can be set before or after initialisation", "statement": "Setting a non-negative pad size is accepted at any time, keeps the values and does not prevent a later initialisation of the collection.", "quantifier": "all fields, all pad sizes, all histories", "why_tests_cant": "The order of pad and initialisation calls is a history property; tests only pad initialised fields.", "anchors": ["src/libmugrid/field_typed.cc: set_pad_size, resize", "src/libmugrid/field_collection.cc: allocate_fields"]}
{"id": "C58", "title": "Sub-point counts are positive and index ranges always report their size", "statement": "Every number of sub-points a collection accepts is positive and the size of an index range equals the number of indices it yields, also before initialisation.", "quantifier": "all collections, all constructor arguments", "why_tests_cant": "Holds or fails for all constructor maps and all states at once.", "anchors": ["src/libmugrid/field_collection.cc: FieldCollection", "src/libmugrid/field_collection.hh: IndexIterable::size"]}
{"id": "C59", "title": "Fields of an initialised collection cannot grow", "statement": "Pushing values to a field of an initialised local collection is refused, so its storage keeps the size demanded by the collection.", "quantifier": "all fields of initialised local collections", "why_tests_cant": "The invariant is about all later histories; a test observes one.", "anchors": ["src/libmugrid/field_typed.cc: push_back, push_back_single"]}
{"id": "C60", "title": "State fields replay history for every memory depth", "statement": "After any sequence of writes and cycles old(k) returns the values that were current k cycles ago, for every nb_memory >= 1.", "quantifier": "all memory depths, all histories", "why_tests_cant": "Tests use the depths 1 and 3; the violation appears only for depths whose successor is not a power of two.", "anchors": ["src/libmugrid/state_field.cc: StateField::StateField"]}
{"id": "C61", "title": "A failed state-field registration has no effect", "statement": "If registering a state field fails, the collection has the same fields as before.", "quantifier": "all collections, all registrations", "why_tests_cant": "Failure needs a name clash with a sub-field, which no test provokes.", "anchors": ["src/libmugrid/state_field.cc: TypedStateField constructor", "src/libmugrid/state_field.hh: register_state_field_helper"]}
{"id": "C62", "title": "Assigning to an entry of a dictionary changes the entry", "statement": "After d[key] = x for an existing key, d[key] holds x, for integers, reals, matrices and dictionaries, in C++ and in Python.", "quantifier": "all dictionaries, keys and values", "why_tests_cant": "Needs all kinds of values in all states; the tests assign no dictionary.", "anchors": ["src/libmugrid/options_dictionary.hh: Dictionary::operator=, operator[]", "language_bindings/python/bind_py_options_dictionary.cc: __setitem__"]}
{"id": "C63", "title": "Assignment between dictionary values is always defined", "statement": "Assigning the value read from a dictionary entry to any entry, and assigning any RuntimeValue to any other, copies the value.", "quantifier": "all pairs of entries and values", "why_tests_cant": "Undefined behaviour usually goes unnoticed; aliasing needs all heaps.", "anchors": ["src/libmugrid/options_dictionary.cc: RuntimeValue::operator="]}
{"id": "C64", "title": "Enumeration with an offset visits all elements", "statement": "enumerate(container, start) visits every element of the container, numbered from start.", "quantifier": "all containers and offsets", "why_tests_cant": "All lengths and offsets; no test uses an offset.", "anchors": ["src/libmugrid/iterators.hh: enumerate, enum_zip"]}
{"id": "C65", "title": "Arithmetic ranges behave like Python's range", "statement": "arange(start, stop, step) is empty whenever stop does not lie beyond start in the direction of step.", "quantifier": "all starts, stops and non-zero steps", "why_tests_cant": "Non-termination cannot be observed by a test; the quotients need all integers.", "anchors": ["src/libmugrid/iterators.hh: ArangeContainer"]}
{"id": "C66", "title": "The compile-time square root is defined for every int", "statement": "ct_sqrt terminates with a value for every int argument, in particular for every perfect square.", "quantifier": "all 32-bit integers", "why_tests_cant": "Evaluated by the compiler; no test reaches large or non-positive arguments.", "anchors": ["src/libmugrid/eigen_tools.hh: ct_sqrt"]}
{"id": "C67", "title": "Only existing frames are accessible by operator[]", "statement": "Asking for the frame whose index equals the number of frames is rejected like every other missing frame.", "quantifier": "all append histories", "why_tests_cant": "The boundary case behaves like an existing frame until it is used.", "anchors": ["src/libmugrid/file_io_base.cc: operator[]"]}
{"id": "C68", "title": "Variables without frames can be written at any time", "statement": "write_no_frame succeeds for variables without frame dimension, also before the first frame is appended.", "quantifier": "all numbers of frames", "why_tests_cant": "Depends on the order of calls.", "anchors": ["src/libmugrid/file_io_netcdf.cc: write_no_frame, handle_frame"]}
{"id": "C69", "title": "Collective operations accept every matrix reference", "statement": "gather and sum give the entry-wise result for every Eigen::Ref argument, including blocks of larger matrices.", "quantifier": "all shapes and column strides", "why_tests_cant": "Needs non-contiguous arguments of every shape; the tests pass whole matrices.", "anchors": ["src/libmugrid/communicator.hh: gather, sum"]}
{"id": "C70", "title": "Quadrature weights belong to quadrature points", "statement": "The transpose operator weights every quadrature point with its own weight, and refuses a vector of weights of the wrong length.", "quantifier": "all weights, stencils and grids", "why_tests_cant": "With one quadrature point or equal weights, as in the tests, the pixel index gives the same weight.", "anchors": ["src/libmugrid/gradient_operator_default.cc: apply_transpose_increment"]}
{"id": "C71", "title": "A gradient operator is only built from nodes it can represent", "statement": "The constructor refuses nodal points whose index is not a node of the pixel or whose offset does not lead to the pixel or a direct successor.", "quantifier": "all constructor arguments", "why_tests_cant": "Wrong arguments produce an operator that looks plausible and couples other nodes.", "anchors": ["src/libmugrid/gradient_operator_default.cc: permutation, GradientOperatorDefault"]}
{"id": "C72", "title": "The gradient operator works on sub-domains", "statement": "Applied on a collection whose sub-domain does not start at the origin the operator returns a gradient.", "quantifier": "all sub-domain locations", "why_tests_cant": "Needs a distributed domain; the tests use one rank.", "anchors": ["src/libmugrid/gradient_operator_default.cc: apply_gradient_increment", "src/libmugrid/grid_common.hh: DynCcoord::operator%"]}
{"id": "C73", "title": "One-dimensional tensors transform by their rank", "statement": "push_forward of a second-rank tensor multiplies with the transformation on both sides, also in one dimension.", "quantifier": "all dimensions including one", "why_tests_cant": "In one dimension all ranks have the same shape; the tests use two and three dimensions.", "anchors": ["src/libmugrid/eigen_tools.hh: get_rank", "src/libmugrid/tensor_algebra.hh: push_forward"]}
{"id": "C74", "title": "The asymmetriser gives the antisymmetric part", "statement": "Iasymm applied to a tensor is half the difference of the tensor and its transpose.", "quantifier": "all dimensions and tensors", "why_tests_cant": "No test calls it.", "anchors": ["src/libmugrid/tensor_algebra.hh: Iasymm"]}
{"id": "C75", "title": "The matrix logarithm exists for every positive definite matrix", "statement": "logm gives a finite result whenever all eigenvalues have a logarithm, also if some of them are equal.", "quantifier": "all matrices", "why_tests_cant": "The tests use random matrices, whose eigenvalues are distinct.", "anchors": ["src/libmugrid/eigen_tools.hh: logm, log_comp::Proj"]}
{"id": "C76", "title": "Component access does not depend on the storage of the matrix expression", "statement": "get(e, i, j, k, l) gives the component at row i + j Dim and column k + l Dim of every matrix expression, including transposed ones and blocks.", "quantifier": "all expressions with strides", "why_tests_cant": "The tests pass column-major matrices only.", "anchors": ["src/libmugrid/T4_map_proxy.hh: get"]}
{"id": "C77", "title": "The order of the component axes of a wrapped array is detected", "statement": "A dense numpy array whose first two component axes are transposed is either refused or shown with its own element order.", "quantifier": "all permutations of component axes", "why_tests_cant": "The tests use C and Fortran order of all axes.", "anchors": ["src/libmugrid/numpy_tools.hh: detect_storage_order (loops start at 1)"]}
{"id": "C78", "title": "Slices and broadcast arrays are refused or shown as they are", "statement": "Wrapping a slice, a reversed array, an array with broadcast axes or with irregular gaps is refused or gives a field with the array's elements.", "quantifier": "all strides", "why_tests_cant": "Needs slices with steps, negative steps and gaps; the tests use whole arrays.", "anchors": ["src/libmugrid/numpy_tools.hh: detect_storage_order", "src/libmugrid/field_collection_global.cc: initialise"]}
{"id": "C79", "title": "A field on an array of unknown storage order behaves like other fields", "statement": "The numpy view of such a field shows the elements of the field, and set_zero clears all of them and nothing else.", "quantifier": "all custom strides and iteration units", "why_tests_cant": "The tests never export or clear a field with custom strides.", "anchors": ["src/libmugrid/field_typed.cc: WrappedField::get_strides, set_zero", "src/libmugrid/numpy_tools.hh: numpy_wrap"]}
{"id": "C80", "title": "Assigning an array to a field and reading it back returns the array", "statement": "After assigning an array to the property s or p of a field, the numpy view has the array's elements at every index and the rest of the memory is unchanged; arrays of another shape are refused. A copy of the field is an array in C order with the elements of the view.", "quantifier": "all layouts whose view reaches each scalar once, all array strides in whole items, all outcomes of unstable sorting", "why_tests_cant": "Layouts, strides and views combine without bound.", "anchors": ["language_bindings/python/bind_py_field.cc: array_getter, array_setter", "src/libmugrid/numpy_tools.hh: numpy_wrap, numpy_copy"]}
{"id": "C81", "title": "Every array in C order is accepted", "statement": "A numpy array in C order with fitting shape can be wrapped in a field.", "quantifier": "all shapes", "why_tests_cant": "Needs grids with an extent of one; the tests use larger ones.", "anchors": ["src/libmugrid/numpy_tools.hh: detect_storage_order"]}
{"id": "C82", "title": "Every field can be registered in a file", "statement": "A field of any name and shape in an initialised collection can be registered in a NetCDF file.", "quantifier": "all names, tags, component shapes, numbers of sub-points", "why_tests_cant": "All strings as names; which names are misread is a property of the string functions.", "anchors": ["src/libmugrid/file_io_netcdf.cc: register_field_collection_global, register_field_collection_local, compute_base_name, consistency_check_global_var, consistency_check_local_var"]}
{"id": "C83", "title": "The order of pixels in a local collection does not matter for files", "statement": "Writing a local field and reading it back into a local collection on the same pixels returns for every pixel the value written for this pixel, whatever the orders in which the collections list their pixels.", "quantifier": "all orders of pixels", "why_tests_cant": "The violation appears only if pixels were added in other than increasing order.", "anchors": ["src/libmugrid/file_io_netcdf.cc: register_lfc_to_gfc_local_pixels, get_start_local, write, read"]}
{"id": "C84", "title": "Reading a local field into a collection on other pixels is refused", "statement": "If a reader's local collection has other pixels than were written, reading fails with an exception, or returns for common pixels the values written and touches no other memory.", "quantifier": "all pixel sets of writer and reader", "why_tests_cant": "All pairs of pixel sets; the access beyond the buffer is silent.", "anchors": ["src/libmugrid/file_io_netcdf.cc: get_start_local, read, register_netcdf_dimension_ids"]}
{"id": "C85", "title": "Reading a field of another shape is refused", "statement": "Reading a variable into a field whose component shape or domain differs from the one in the file fails with an exception.", "quantifier": "all pairs of shapes and domains", "why_tests_cant": "All pairs of shapes; the lengths of dimensions are not compared.", "anchors": ["src/libmugrid/file_io_netcdf.cc: register_netcdf_dimension_ids, register_netcdf_variable_ids, read"]}
{"id": "C86", "title": "Statically sized maps see what dynamic maps see", "statement": "A map with compile-time shape on a column-major field is accepted exactly if its number of scalars is that of one entry; iterating over it (const or not) and indexing it then yield, entry by entry, the logical values of the field; combining all entries with a matrix outside the field changes exactly the entries of the map, each as prescribed.", "quantifier": "all fields, iterate shapes, both iteration units, contents", "why_tests_cant": "All shapes and sizes; the iterator carries its own address arithmetic.", "anchors": ["src/libmugrid/field_map_static.hh: StaticFieldMap, StaticFieldMap::Iterator, TensorRows, TensorCols"]}
{"id": "C87", "title": "Maps are not usable before their collection is initialised, and usable afterwards", "statement": "Iterating over a dynamic map or a const statically sized map, and combining the entries of a dynamic map with a matrix, throws FieldMapError before the collection is initialised; initialising the collection turns a statically sized map created before into the map that would be created afterwards.", "quantifier": "all histories before initialisation, both units", "why_tests_cant": "All histories; a map that keeps a null pointer fails only when used.", "anchors": ["src/libmugrid/field_map.cc: begin, set_data_ptr", "src/libmugrid/field_map_static.hh: begin", "src/libmugrid/field_map.hh: operator=, operator+=, operator-="]}
{"id": "C88", "title": "A statically sized map that is not const refuses iteration before initialisation", "statement": "Iterating over a statically sized map before its collection is initialised throws FieldMapError.", "quantifier": "all fields and units", "why_tests_cant": "Undefined behaviour or silently no iteration; a test that crashes or passes by luck settles nothing.", "anchors": ["src/libmugrid/field_map_static.hh: begin (257), end (260), Iterator"]}
{"id": "C89", "title": "An entry of a map may be the argument of an operation on all entries", "statement": "Adding entry k of a map to every entry of the map adds the value that entry had before the operation.", "quantifier": "all maps, entries and operations", "why_tests_cant": "Only maps with entries after the chosen one show it.", "anchors": ["src/libmugrid/field_map.hh: operator+=, operator-=", "src/libmugrid/field_map_static.hh: operator+=, operator-="]}
{"id": "C90", "title": "The mean over a statically sized map without entries is zero, as for dynamic maps", "statement": "The mean of a statically sized map is the sum of its entries divided by their number, and zero where a process holds no entries.", "quantifier": "all maps including empty ones", "why_tests_cant": "Empty processes appear only in parallel runs.", "anchors": ["src/libmugrid/field_map_static.hh: mean (632-643)", "src/libmugrid/field_map.cc: mean"]}
{"id": "C91", "title": "Enumerations pair every entry with its index", "statement": "Enumerating the indices of a statically sized map, of a dynamic map over sub-points, or the pixels of a dynamic map over pixels visits every entry once, each together with the index of the pixel (times the number of sub-points plus the sub-point) whose values it holds; the enumeration of pixels is refused for maps over sub-points.", "quantifier": "all collections, histories, fields, pixel orders and units", "why_tests_cant": "All numberings of pixels and all layouts; the pairing of two iterations is a property of both.", "anchors": ["src/libmugrid/field_map.cc: enumerate_pixel_indices_fast, enumerate_indices", "src/libmugrid/field_map_static.hh: enumerate_indices", "src/libmugrid/field_collection.cc: IndexIterable, PixelIndexIterable"]}
{"id": "C92", "title": "A dynamic map over pixels enumerates the indices of pixels", "statement": "Enumerating the indices of a dynamic map over pixels pairs every pixel's entry with that pixel's index.", "quantifier": "all collections and fields", "why_tests_cant": "Shows only with several sub-points per pixel.", "anchors": ["src/libmugrid/field_map.cc: enumerate_indices (211-216)"]}
{"id": "C93", "title": "A mapped field is a registered field together with its map", "statement": "Creating a mapped field under a fresh name in an initialised column-major collection registers a field with the components of the iterate (its product for static shapes, rows and columns for dynamic ones), the given type, unit and sub-division, leaves all other fields alone, and yields the map of that field; an optional mapped field does this on first use and returns the same map on every later use.", "quantifier": "all collections and histories, names, shapes, units; sub-point-wise maps with any number of sub-points, pixel-wise static maps with one sub-point, pixel-wise dynamic maps with any", "why_tests_cant": "All shapes, histories and numbers of sub-points.", "anchors": ["src/libmugrid/mapped_field.hh: MappedField, constructors", "src/libmugrid/optional_mapped_field.hh: OptionalMappedField"]}
{"id": "C94", "title": "A failed creation of a mapped field leaves nothing behind", "statement": "If the constructor of a mapped field throws, the collection is as before, and the name can be used again.", "quantifier": "all collections, shapes, units", "why_tests_cant": "Concerns the state after an exception for every shape.", "anchors": ["src/libmugrid/mapped_field.hh: MappedField (76-89)", "src/libmugrid/optional_mapped_field.hh: get"]}
{"id": "C95", "title": "A copy of a field has the same attributes and values", "statement": "Cloning a field with one component axis under a new name, or over an existing field with the same sub-division, type and components, gives a field with the same unit (new name), sub-division, type and layout and the same value at every logical index, and changes no other field; cloning onto an existing name is refused without effect if overwriting is not allowed or the number of components, the sub-division or the type differs.", "quantifier": "all initialised collections, local and global, storage orders, histories, fields and contents below 2^31 scalars", "why_tests_cant": "All layouts and contents; the copy goes through the strided copy.", "anchors": ["src/libmugrid/field_typed.cc: TypedField::clone, TypedField::operator=, TypedField::safe_cast"]}
{"id": "C96", "title": "A copy of a field keeps the shape of its components", "statement": "Cloning a field whose components have several axes succeeds and gives a field with the same component shape.", "quantifier": "all fields with more than one component axis", "why_tests_cant": "All shapes; local and global collections behave differently.", "anchors": ["src/libmugrid/field_typed.cc: TypedField::clone (315-337)"]}
{"id": "C97", "title": "A detached field is allocated and independent of the registry", "statement": "A detached field created in an initialised collection has the requested attributes and storage for all its entries, is not listed by the collection, which is otherwise unchanged, and keeps its layout whatever is done to the collection afterwards.", "quantifier": "all initialised collections, names, shapes, histories afterwards", "why_tests_cant": "All later histories.", "anchors": ["src/libmugrid/field_collection.hh: detached_field (1066-1081)", "src/libmugrid/field_collection.cc: pop_field"]}
{"id": "C98", "title": "A field detached before the initialisation is usable after it", "statement": "A detached field created before its collection is initialised is allocated when the collection is initialised.", "quantifier": "all collections, names, shapes, histories afterwards", "why_tests_cant": "All later histories; a null pointer is dereferenced only on access.", "anchors": ["src/libmugrid/field_collection.hh: detached_field (1066-1081)", "src/libmugrid/field_collection_local.cc: initialise", "src/libmugrid/field_collection.cc: allocate_fields"]}
{"id": "C99", "title": "The index map of a local collection inverts its list of pixels", "statement": "The map from global to local indices gives for every pixel the first position at which it was added, for distinct pixels the only one, and has no other keys; an empty clone of a local collection has the same pixels in the same order and the same numbers of sub-points, no fields, and can be initialised.", "quantifier": "all sequences of pixels, all collections and histories", "why_tests_cant": "All sequences of pixels.", "anchors": ["src/libmugrid/field_collection_local.cc: add_pixel, get_empty_clone", "src/libmugrid/field_collection_local.hh: get_global_to_local_index_map"]}
{"id": "C100", "title": "An empty clone of a global collection has the same grid", "statement": "An empty clone of an initialised global collection has the same pixels, pixel strides, storage order and numbers of sub-points, and no fields.", "quantifier": "all global collections, storage orders, strides, locations", "why_tests_cant": "All ways to initialise a collection.", "anchors": ["src/libmugrid/field_collection_global.cc: get_empty_clone (163-169)"]}
{"id": "C101", "title": "A pixel is in a local collection at most once", "statement": "Adding a pixel that is in the collection already is refused or has no effect.", "quantifier": "all sequences of pixels", "why_tests_cant": "All sequences of pixels.", "anchors": ["src/libmugrid/field_collection_local.cc: add_pixel (54-63)"]}
{"id": "C102", "title": "Statically sized maps of state fields follow the history", "statement": "A statically sized map of a state field is accepted exactly if its memory is that of the state field and its shape has the number of scalars of one entry; after any history of cycles, writes and operations on other fields, its current and old entries are those of the fields that hold these states, and the iterates hand out the current and all old entries.", "quantifier": "all state fields with equal sub-fields, memories, shapes, units and histories", "why_tests_cant": "All histories of cycling; the map picks sub-fields through the cycled indices.", "anchors": ["src/libmugrid/state_field_map_static.hh: StaticStateFieldMap, make_maps, StaticStateWrapper, get_old_static, get_current_static"]}
{"id": "C103", "title": "A wrapped field keeps its memory", "statement": "A wrapped field is accepted only if the memory has exactly the scalars of the field and the strides, if given, have one entry per axis. Its pad size cannot be set, and resizing it does nothing or is refused. With strides given by the caller the storage order is unknown and there is no view by pixels. Setting it to zero clears exactly the scalars of the field and leaves the memory behind them as it is.", "quantifier": "all layouts, memories, strides", "why_tests_cant": "All memories, sizes and strides.", "anchors": ["src/libmugrid/field_typed.cc: WrappedField::WrappedField, set_pad_size, set_zero, resize, get_strides, get_storage_order (551-746)"]}
{"id": "C104", "title": "A coordinate of runtime dimension behaves like a list", "statement": "A coordinate can be made from exactly the lists that fit its capacity. Its vector, entries, last entry and size are those of the list; two coordinates, or a coordinate and an array, compare equal exactly if the lists are equal; appending adds an entry or is refused if the coordinate is full; sum, difference and quotient are taken entry by entry and refused for different dimensions; the remainder is taken entry by entry for equal dimensions; the integer power is the power for exponents that are not negative.", "quantifier": "all capacities, lists, previous contents of the storage", "why_tests_cant": "All previous contents of the storage behind the entries in use.", "anchors": ["src/libmugrid/grid_common.hh: DynCcoord (236-509), operator+, operator- (528-576), ipow (716-724)", "language_bindings/python/bind_py_common_mugrid.cc: __getitem__ (89-99)"]}
{"id": "C105", "title": "Coordinates cannot leave their storage, and equal coordinates are interchangeable", "statement": "Equal coordinates convert to equal arrays of every dimension, the dimension of a coordinate is never beyond its capacity or negative, operations on different dimensions are refused, and a power with negative exponent is not silently one.", "quantifier": "all coordinates", "why_tests_cant": "Depends on stale entries and unchecked dimensions.", "anchors": ["src/libmugrid/grid_common.hh: DynCcoord(Dim_t) (318), operator= (362-369), operator%= (429-434), get (450-467), back (500-502), ipow (716-724)", "language_bindings/python/bind_py_common_mugrid.cc: py::init<Index_t> (87)"]}
{"id": "C106", "title": "Attributes survive closing and opening a file again", "statement": "After any sequence of operations on a file created or appended to, of which some may fail, and a successful close, reading the file gives the attributes it had at the start with every successful addition, change and renaming applied in order, and the same names in the same order (at most thirty attributes, renaming to new legal names, values of the types offered); only last_modified_date and last_modified_time are set by closing, to the date and time of closing if the file was changed.", "quantifier": "all files, sequences of operations, names, types and values", "why_tests_cant": "All interleavings of attribute operations with registering, writing and reading; the file switches between define and data mode.", "anchors": ["src/libmugrid/file_io_netcdf.hh: write_global_attribute, update_global_attribute (1412-1558), NetCDFGlobalAtt (456-560)", "src/libmugrid/file_io_netcdf.cc: define_global_attributes, read_global_attributes, close, GlobalAttributes"]}
{"id": "C107", "title": "A frame keeps what was written last", "statement": "After any sequence of operations on a file created or appended to and a successful close, the file has for every field and frame the value written last, or what the file had before; failed operations that do not concern this field and frame change nothing. In a new file every write of registered fields with legal distinct names succeeds.", "quantifier": "all files, sequences of operations, fields, frames, values", "why_tests_cant": "All interleavings of registering, writing, reading and attribute operations.", "anchors": ["src/libmugrid/file_io_netcdf.cc: register_field_collection, write, enddef, redef, close"]}
{"id": "C108", "title": "A failed change of an attribute leaves the attributes alone", "statement": "If changing an attribute throws, all attributes are as before.", "quantifier": "all files, histories, names and values", "why_tests_cant": "Concerns the state after an exception.", "anchors": ["src/libmugrid/file_io_netcdf.hh: update_global_attribute (1475-1558)", "src/libmugrid/file_io_netcdf.cc: update_attribute (1806-1826)"]}
{"id": "C109", "title": "A field with another unit than in the file is refused", "statement": "Registering a field whose unit differs from the unit stored with the variable is refused, when reading and when appending.", "quantifier": "all units, all files", "why_tests_cant": "All pairs of units.", "anchors": ["src/libmugrid/file_io_netcdf.cc: NetCDFVarBase::validate, register_netcdf_attributes", "src/libmugrid/file_io_netcdf.hh: NetCDFAtt::equal"]}
{"id": "C110", "title": "A file can be closed", "statement": "Whatever operations were accepted before, closing the file succeeds (the destructor closes the file, and an exception there ends the program).", "quantifier": "all modes, files, sequences of operations", "why_tests_cant": "All histories before closing.", "anchors": ["src/libmugrid/file_io_netcdf.cc: close, ~FileIONetCDF"]}
{"id": "C111", "title": "Open modes protect what is on disk", "statement": "Write mode refuses an existing file and leaves it as it is; overwrite mode starts from an empty file; read and append mode refuse a missing file. A file opened for reading is never changed, and writing a field or an attribute to it is refused. A file opened for appending keeps its variables and all values written before. Nothing on disk changes between opening and closing.", "quantifier": "all files, sequences of operations", "why_tests_cant": "All histories and contents.", "anchors": ["src/libmugrid/file_io_netcdf.cc: FileIONetCDF::open, close, write", "src/libmugrid/file_io_base.hh: OpenMode"]}
{"id": "C112", "title": "A refused registration can be corrected", "statement": "Registering fields with new legal names succeeds, and if registering fails, registering the right fields afterwards succeeds.", "quantifier": "all modes, files, histories, names", "why_tests_cant": "Concerns the state after an exception.", "anchors": ["src/libmugrid/file_io_netcdf.cc: register_field_collection, NetCDFVariables::add_field_var, define_netcdf_variables"]}
{"id": "C113", "title": "All attributes of a file can be read", "statement": "Opening a file gives all its global attributes with their types and values.", "quantifier": "all files", "why_tests_cant": "All numbers, types and values of attributes.", "anchors": ["src/libmugrid/file_io_netcdf.cc: register_netcdf_attributes, read_global_attributes", "src/libmugrid/file_io_netcdf.hh: MAX_NB_ATTRIBUTES, NetCDFAtt"]}
{"id": "C114", "title": "Appending works whatever the order of the preparations", "statement": "In append mode, once fields are registered they can be written, whether attributes are changed before or after registering.", "quantifier": "all files, sequences of operations", "why_tests_cant": "All orders of operations.", "anchors": ["src/libmugrid/file_io_netcdf.cc: register_field_collection, write", "src/libmugrid/file_io_netcdf.hh: update_global_attribute (1475-1558)"]}
{"id": "C115", "title": "Printed units can be told apart", "statement": "Printing a unit always succeeds, and two units with reduced exponents print the same text only if they are equal, or both have no base units and non-zero tags. Domains whose units are not of that kind print the same text only if rank, input and output unit agree.", "quantifier": "all units with reduced exponents, all tags, all ranks", "why_tests_cant": "All pairs of units; the text is a variable-length code (names that are prefixes of each other, multi-byte superscripts).", "anchors": ["src/libmugrid/units.cc: superscript, operator<< (182-249, 456-484)", "src/libmugrid/physics_domain.cc: operator<<"]}
{"id": "C116", "title": "Units that must not be mixed print differently", "statement": "Two units with different tags, which the library refuses to add or compare as equal, print different texts.", "quantifier": "all units and tags", "why_tests_cant": "All pairs of units; tests print two units.", "anchors": ["src/libmugrid/units.cc: operator<< (456-484)"]}
{"id": "C117", "title": "Values come back bit for bit for every element type", "statement": "For fields of int, unsigned int, Index_t and Real elements the variable in the file has the size and kind of the element type, and whatever bytes a process writes for a value are the bytes any process that owns this value reads later, for global and local collections and any distribution, after any number of other writes of fields of any type.", "quantifier": "all element types that can be stored, platforms (int of 2, 4 or 8 bytes, Index_t of 4 or 8), shapes, storage orders, decompositions, contents", "why_tests_cant": "All combinations of types, sizes and layouts; the transfer works on untyped pointers, where a wrong element size shows only for some shapes.", "anchors": ["src/libmugrid/file_io_netcdf.hh: netcdf_signed_type, netcdf_type, MU_NC_* (124-205)", "src/libmugrid/file_io_netcdf.cc: typeid_to_nc_type, nc_type_to_mpi_datatype, increment_buf_ptr, write, read"]}
{"id": "C118", "title": "Fields of every element type can be saved", "statement": "A field of any element type the library offers can be registered in a file, alone or with its collection.", "quantifier": "all element types, shapes, names", "why_tests_cant": "All types and all mixtures in a collection.", "anchors": ["src/libmugrid/file_io_netcdf.cc: typeid_to_nc_type (2230-2260), register_field_collection_global (467-573)"]}
{"id": "C119", "title": "A variable of another type is refused", "statement": "Reading or appending a field whose element type differs from the type of the variable in the file is refused.", "quantifier": "all pairs of types, shapes and files", "why_tests_cant": "All pairs of types; the outcome is memory corruption or reinterpretation for sizes that do not match.", "anchors": ["src/libmugrid/file_io_netcdf.cc: register_netcdf_variable_ids (837-862), NetCDFVarField::write, read"]}
{"id": "C120", "title": "A mapped state field is a state field with a map that shows its states", "statement": "Creating a mapped state field in an initialised column-major collection, under a free prefix and with free names for its states, makes a state field with the components of the iterate type, the memory of the map and storage for all states, leaves all other fields and state fields alone, and gives a map whose current and old entries are, after any history of cycles, writes and operations on other fields, those of the fields that hold these states. A prefix that is taken is refused and nothing changes.", "quantifier": "every system reached by any history, prefix, element type, iterate type, memory, sub-division tag with known number of sub-points (one, for pixel-wise iteration), and every later history", "why_tests_cant": "tests make one mapped state field and cycle once or twice", "anchors": ["src/libmugrid/mapped_state_field.hh:45-119", "src/libmugrid/state_field_map_static.hh:97-142", "src/libmugrid/state_field.hh:282-344"]}
{"id": "C121", "title": "Statically dimensioned pixels are the dynamic ones", "statement": "Statically dimensioned pixels, column-major or with strides judged contiguous, visit every pixel of the box exactly once, the one with index k at step k; the static view on dynamic pixels is given for the dimension of the grid only and has the coordinates, indices and iteration of the dynamic pixels; an index for coordinates of another dimension is refused.", "quantifier": "all positive extents with fewer than 2^31 pixels, locations, contiguous strides and every outcome of the sort of the axes", "why_tests_cant": "All shapes, stride permutations and sort outcomes; the test compares one grid.", "anchors": ["src/libmugrid/ccoord_operations.hh: Pixels, Pixels::iterator (898-1024), get_ccoord_from_axes_order (403-421), DynamicPixels::get_index (683-692)", "src/libmugrid/ccoord_operations.cc: get_dimensioned_pixels, constructors (176-250)"]}
{"id": "C122", "title": "Iterating over pixels with gaps is refused", "statement": "Iterating over pixels, dynamic or statically dimensioned, whose strides leave gaps is refused.", "quantifier": "all extents and strides", "why_tests_cant": "All shapes and strides.", "anchors": ["src/libmugrid/ccoord_operations.hh: DynamicPixels::iterator (760-780), Pixels::iterator (986-992)"]}
{"id": "C123", "title": "Pixels fill the domain", "statement": "The volume of a pixel times the number of pixels is the product of the lengths of the domain, exactly; the position of every pixel and the pixel itself lie inside the domain; cubes are made for one, two and three dimensions, with equal extents, and refused otherwise.", "quantifier": "all positive extents and lengths (exact arithmetic)", "why_tests_cant": "All dimensions and real lengths.", "anchors": ["src/libmugrid/ccoord_operations.cc: compute_pixel_volume (71-81)", "src/libmugrid/ccoord_operations.hh: get_cube (123-151), get_vector (153-250), compute_volume (484-505)"]}
{"id": "C124", "title": "The pixel volume refuses lengths of another dimension", "statement": "The volume of a pixel is computed only for as many lengths as the grid has dimensions.", "quantifier": "all grids and lists of lengths", "why_tests_cant": "All pairs of dimensions.", "anchors": ["src/libmugrid/ccoord_operations.cc: compute_pixel_volume (71-81)"]}
{"id": "C125", "title": "Maps survive the initialisation of their collection whatever happened to them before", "statement": "Until its collection is initialised every map refuses iteration. The initialisation has the same outcome as without maps, whatever maps were created, refused, moved or destroyed before it, as long as fields are destroyed after their maps. From then on every map of a registered field that was not removed, padded or reshaped while mapped is the map that would be created now and shows all stored entries in order; a moved map and the map it was moved from show the same.", "quantifier": "every interleaving of operations on the collection, creations (also refused ones), moves and ends of maps, removals and ends of fields", "why_tests_cant": "All interleavings of object lifetimes; callbacks of maps that no longer exist must not run.", "anchors": ["src/libmugrid/field_collection.cc: preregister_map (460-466), initialise_maps (396-404), pop_field (416-428)", "src/libmugrid/field_map.cc: constructors (48-121), set_data_ptr (190-198)", "src/libmugrid/field_collection_local.cc:66-75", "src/libmugrid/field_collection_global.cc:86-131"]}
{"id": "C126", "title": "A field may be removed while it is mapped", "statement": "Removing a field from its collection before the initialisation, and destroying it or keeping it, leaves the initialisation defined and the maps of the field refusing or showing its values.", "quantifier": "all histories", "why_tests_cant": "Dangling references show only under a sanitizer and only for this order of events.", "anchors": ["src/libmugrid/field_collection.cc: pop_field (416-428), initialise_maps (396-404)", "src/libmugrid/field_map.cc: set_data_ptr (190-198)"]}
{"id": "C127", "title": "Collections saved together are saved as if alone", "statement": "If every field of several collections, global or local, can be saved alone, all have one domain, a global collection comes first and no name of a field or local collection is used twice, then registering them one after the other for a new file succeeds and the file has exactly their variables, each with the dimensions it has alone; no dimension is there twice and none is unused. A file that has the variables of some collections, made by whomever, can be opened for these collections, in any order and grouping, and each variable is found with its dimensions.", "quantifier": "all sequences of collections, fields, state fields, shapes, names the library allows, and files", "why_tests_cant": "All combinations of collections and shapes, and dimensions shared among any of them; a test saves one fixed set.", "anchors": ["src/libmugrid/file_io_netcdf.cc: register_field_collection (64-171), register_field_collection_global, _local (467-680), initialise_gfc_local_pixels, register_lfc_to_gfc_local_pixels (683-742), define_netcdf_dimensions, define_netcdf_variables (745-778), register_netcdf_dimension_ids, register_netcdf_variable_ids (797-862), add_dim, add_field_dims_global, add_field_dims_local, find_dim (1150-1289), get_names (3263-3271)"]}
{"id": "C128", "title": "A field may have the name of a local collection", "statement": "A field with the name of a local collection that is saved in the same file is saved, or refused when it is registered without consequences for other collections.", "quantifier": "all names of collections and fields", "why_tests_cant": "All coincidences of names.", "anchors": ["src/libmugrid/file_io_netcdf.cc: register_lfc_to_gfc_local_pixels (698-742), get_names (3263-3271), define_netcdf_variables (762-778)"]}
{"id": "C129", "title": "A field with the name of a field of a state field of another collection is saved", "statement": "A field that does not belong to a state field is saved or refused, whatever the names of fields in other collections.", "quantifier": "all collections registered before", "why_tests_cant": "All coincidences of names.", "anchors": ["src/libmugrid/file_io_netcdf.cc: register_field_collection_global (477-563), register_field_collection_local (588-679)"]}
{"id": "C130", "title": "A refused collection leaves no trace", "statement": "After a collection was refused, for instance for its domain, other collections can be registered as if nothing had happened.", "quantifier": "all refused collections and all later ones", "why_tests_cant": "All sequences of failures and retries.", "anchors": ["src/libmugrid/file_io_netcdf.cc: add_field_dims_global (1164-1224), define_netcdf_dimensions (745-759)"]}
{"id": "C131", "title": "What was written last is what every later run reads", "statement": "A program creates a NetCDF file with global and local fields, state fields included, and then appends frames, writes and reads any fields, changes them, closes the file and opens it again, also with another number of processes and another decomposition. Writing an existing frame succeeds in every mode except reading. Afterwards the frame remains, and as long as this field was not written again in this frame and the file was not replaced, reading it succeeds in any later run and gives every process the values that were written last for its pixels. Local collections list their pixels in increasing order, and something of a local collection is written in the run that creates the file before it is read, or written by a run that extends the file. Names of fields that were not registered are refused with an exception.", "quantifier": "all domains, decompositions, layouts, sets of fields and local collections, all programs (sequences of operations, including failing ones), all contents of cells that were never written", "why_tests_cant": "Tests write and read one field once with one decomposition; the interplay of several fields, frames, modes and runs, with the bookkeeping of positions of local pixels, is unbounded.", "anchors": ["src/libmugrid/file_io_netcdf.cc: open (174-290), read (313-335), write (343-393), register_lfc_to_gfc_local_pixels (698-742), NetCDFVarBase::write (2528-2607), read (2610-2692), NetCDFVarStateField (3188-3219), NetCDFVariables::get_variable (3282-3312)"]}
{"id": "C132", "title": "Reading does not affect what is written later", "statement": "Reading a field, successfully or not, does not change what a later write of this field puts into the file.", "quantifier": "all programs that read a field before they write it for the first time", "why_tests_cant": "All orders of reads and writes.", "anchors": ["src/libmugrid/file_io_netcdf.cc: read (313-335), write (343-393), open (282-290: no fill)"]}
{"id": "C133", "title": "A registered field can be written by a later run first", "statement": "A field that was registered when the file was created can be written for the first time by a later run that opens the file to append to it.", "quantifier": "all fields that the creating run registered but did not write", "why_tests_cant": "All divisions of the writes among runs.", "anchors": ["src/libmugrid/file_io_netcdf.cc: write (343-393), register_lfc_to_gfc_local_pixels (698-742), open (282-290: no fill)"]}
{"id": "C134", "title": "Attributes written from Python are read back equal", "statement": "A Python program creates a NetCDF file or opens one to append to it, sets and updates global attributes with strings and lists of numbers, writes and reads fields, and closes the file. Every later run reads for each attribute a value that equals (in the sense of Python's ==) the one given last, for strings, lists of integers of 64 bits, and lists with floats in which every integer has the value of a float. Until the first values are written such an attribute is accepted if its name is new. Integers are stored in the first of int, unsigned int and 64 bit integers that holds them all, lists with floats as doubles. The dictionary of all attributes has the same values.", "quantifier": "all such values, names and programs, including failing calls; at most 30 attributes", "why_tests_cant": "The overload is chosen by the values: every boundary of every integer type, mixtures of integers, booleans and floats, and every sequence of calls.", "anchors": ["language_bindings/python/bind_py_file_io.cc: write_global_attribute (205-220), read_global_attribute (223-262), read_global_attributes (263-312), update_global_attribute (313-328)", "src/libmugrid/file_io_netcdf.cc: get_typed_value_c ... get_typed_value_d (1565-1627)"]}
{"id": "C135", "title": "Numbers that do not fit are refused", "statement": "A list that is accepted as value of an attribute is read back equal.", "quantifier": "all lists of Python numbers", "why_tests_cant": "Python integers are unbounded, and lists may mix integers and floats.", "anchors": ["language_bindings/python/bind_py_file_io.cc: write_global_attribute (205-220)"]}
{"id": "C136", "title": "An attribute can be updated with a value of its kind from Python", "statement": "An attribute that holds a list of numbers can be updated with a list of numbers of the same length.", "quantifier": "all pairs of lists of numbers", "why_tests_cant": "The types of the old and the new value are chosen by their numbers.", "anchors": ["language_bindings/python/bind_py_file_io.cc: update_global_attribute (313-328)", "src/libmugrid/file_io_netcdf.cc: update_attribute (1816-1838)"]}
{"id": "C137", "title": "The text of an attribute shows its value", "statement": "get_value_as_string and convert_void_value_to_string return the value of an attribute as text, so that messages about different attributes differ.", "quantifier": "all attributes", "why_tests_cant": "All values of all types.", "anchors": ["src/libmugrid/file_io_netcdf.cc: get_value_as_string (1630-1659), convert_void_value_to_string (1662-1680)"]}
{"id": "C138", "title": "Parallel programs finish, with one result", "statement": "The processes of an MPI program create or open a NetCDF file, write and read fields of global and local collections in all frames, append frames, change their memory and open the file again, each at its own pace. Whatever the order in which they proceed, all of them finish, none waits for ever, and the file, the memory of every process and the outcome of every call, exceptions included, do not depend on that order. Local fields are not read from frames that have not been written, nor written to a file that is opened for reading.", "quantifier": "all numbers of processes, decompositions, fields, programs and all interleavings of the processes", "why_tests_cant": "The number of interleavings grows exponentially; a test sees the few that the machine happens to choose.", "anchors": ["src/libmugrid/file_io_netcdf.cc: write (343-393), read (313-335), NetCDFVarBase::write (2528-2607), NetCDFVarBase::read (2610-2692), register_lfc_to_gfc_local_pixels (698-742), open (174-290)"]}
{"id": "C139", "title": "What one parallel program writes another one reads", "statement": "A program with some number of processes writes a field in a frame. When it is done, a program with any other number of processes and any other decomposition opens the file and reads this frame; if the frame of the field was not written again, every process gets the values that were written for its pixels, whatever the order in which the processes of both programs proceed.", "quantifier": "all pairs of parallel programs and all interleavings of their processes", "why_tests_cant": "Interleavings of two programs with arbitrary decompositions.", "anchors": ["src/libmugrid/file_io_netcdf.cc: write (343-393), read (313-335), NetCDFVarBase::write (2528-2607), NetCDFVarBase::read (2610-2692)"]}
{"id": "C140", "title": "An exception leaves a parallel program able to go on", "statement": "If a call of write or read throws, it does so on all processes, and the program can catch the exception and use the file as before.", "quantifier": "all failing calls of parallel programs", "why_tests_cant": "Failing calls in all states, with all distributions of local pixels among processes.", "anchors": ["src/libmugrid/file_io_netcdf.cc: NetCDFVarBase::write (2554-2606), NetCDFVarBase::read (2638-2691)"]}
{"id": "C141", "title": "Writing to a file that is opened for reading is reported", "statement": "Writing a field to a file that was opened for reading throws.", "quantifier": "all fields and programs", "why_tests_cant": "All states of a file that was opened for reading.", "anchors": ["src/libmugrid/file_io_netcdf.cc: write (343-393), NetCDFVarBase::write (2554-2606)"]}
{"id": "C142", "title": "Python objects keep alive what they refer to", "statement": "A Python program may give up its collection, its fields and its arrays in any order. Every field, state field, set of pixels, array from the method array or from a buffer, slice of such an array and copy that it still has can be used, and all calls on it are defined. A program that has variables for all its collections and files can use everything it got from them.", "quantifier": "all programs: all sequences of calls and deletions", "why_tests_cant": "Every order of deletions and every chain of references; use after free may go unnoticed in a test.", "anchors": ["language_bindings/python/bind_py_field.cc: array, buffer, clone (114-128, 150-152)", "language_bindings/python/bind_py_field_collection.cc: register and get fields (67-431)", "language_bindings/python/bind_py_state_field.cc: current, old (62-92)"]}
{"id": "C143", "title": "All Python objects keep alive what they refer to", "statement": "The arrays of the properties s and p, field maps, iterators, frames, and files with registered collections can be used as long as the program has them.", "quantifier": "all programs", "why_tests_cant": "Every order of deletions; use after free may go unnoticed in a test.", "anchors": ["language_bindings/python/bind_py_field.cc: s, p, get_pixel_map, get_sub_pt_map (129-148)", "language_bindings/python/bind_py_common_mugrid.cc: pixels (165-178)", "language_bindings/python/bind_py_file_io.cc: iteration, frames, register_field_collection (134-178)"]}
{"id": "C144", "title": "Arrays of fields stay views in Python programs", "statement": "A Python program takes an array of a field of an initialised collection (f.s, f.p or f.array). Whatever calls follow - further fields, sub-divisions, failing initialisations, assignments, set_zero - the array shows the same elements as a new array of the field; writing an element changes this element of the field, and no other element nor any other field; after f.s = a all arrays taken before show the elements of a.", "quantifier": "all programs on global and local collections, all fields and units, all element types and shapes", "why_tests_cant": "Every sequence of calls that might move the memory of a field.", "anchors": ["language_bindings/python/bind_py_field.cc: array_getter, array_setter (88-108), set_zero (70)", "src/libmugrid/field_typed.cc: resize (193-211)", "src/libmugrid/field_collection.cc: allocate_fields (374-393)"]}
{"id": "C145", "title": "Arrays of fields are views at any time", "statement": "An array of a field that is taken at any time shows and changes the elements of the field from then on, and assigning to f.s is defined.", "quantifier": "all programs", "why_tests_cant": "Every point in time at which the program may ask for the array.", "anchors": ["language_bindings/python/bind_py_field.cc: array_getter, array_setter (88-108)", "language_bindings/python/bind_py_field.cc: def_buffer checks, the others do not (114-134)"]}
{"id": "C146", "title": "Arrays of one program reach the arrays of another", "statement": "Parallel programs hold their data in arrays on the fields of a global collection each. A program writes a field to frame n of a file. Whatever this and other programs do in between - change the arrays, write other frames and fields, close and open the file, run on another number of processes with another storage order and another division of the domain, register the fields in another order - except to write this frame of the field again or to create the file anew: reading frame n succeeds, and every array of the field on every process then shows, at each pixel the process owns, the element that the arrays of the writing program showed when it wrote. Arrays of fields that are not read keep their elements. Creating and opening succeed, append_frame adds one frame, and none of them nor write changes an array. A process's part of the domain is the one it asked for when it initialised its collection, and stays so.", "quantifier": "all domains, divisions, storage orders, fields, sequences of calls and programs", "why_tests_cant": "Every combination of memory layouts, decompositions and calls in between.", "anchors": ["src/libmugrid/file_io_netcdf.cc: register_field_collection (467-573), write, read (2540-2692)", "language_bindings/python/bind_py_field.cc: array_getter (88-97)", "src/libmugrid/field_collection_global.cc: initialise (71-215)"]}
{"id": "C147", "title": "A program continued from a file computes what the one that wrote it would have", "statement": "Parallel programs hold fields and state fields (each with a memory of 2^k - 1 old states) in a global collection per process. A program writes all of them to frame n of a file. Later this or another program - another number of processes, another division of the domain, another storage order, state fields cycled any number of times, variables registered in another order - reads frame n, which was not written again in between. Then all states of all fields have the values they had at the time of writing; and any computation (any sequence of elements written through arrays and of calls to cycle) that the two programs carry out from there leaves both with the same values. Reading back what was written holds for every memory of at least one old state, for each variable on its own. At every moment each element has one value, which every array on it shows; any such computation can be carried out; taking arrays, making, opening and closing files, adding frames and writing change no value.", "quantifier": "all domains, divisions, storage orders, fields, state fields, sequences of calls and programs", "why_tests_cant": "Every combination of memory layouts, decompositions, positions of the state fields in their cycle, and continuations.", "anchors": ["src/libmugrid/file_io_netcdf.cc: register_field_collection (467-573), write, read (64-171), NetCDFVarStateField (2942-2948, 3183-3213)", "src/libmugrid/state_field.cc: cycle (93-97)", "language_bindings/python/bind_py_state_field.cc: cycle, current, old (66-75)"]}
{"id": "C148", "title": "A program with any memory of old states can be continued from a file", "statement": "C147 for state fields with any number of old states: after all fields were written and read, the program that reads computes what the one that wrote would have.", "quantifier": "all state fields", "why_tests_cant": "The difference appears only after further calls to cycle in both programs.", "anchors": ["src/libmugrid/state_field.cc: constructor, cycle (62-97)", "src/libmugrid/file_io_netcdf.cc: NetCDFVarStateField (2942-2948)"]}
{"id": "C149", "title": "Processes that define a file together stay together", "statement": "The processes of an MPI program open, create, append to, use and close files one after the other: they write, update and rename attributes, register fields, write and read them, also in ways that are refused. Each of them has its own clock. All of them make the same collective calls, finish, and get the same outcome from every call, exceptions included; outcomes and files are those of one process with the clock of process 0. While a file is open all processes see the same attributes with the same values, apart from the dates and times that they have put into a file they created or appended to and that they do not rename; in a file that is opened again they see the same dates and times too.", "quantifier": "all numbers of processes, clocks, files and programs", "why_tests_cant": "Differences between the clocks of processes are rare and not under the control of a test; a process that makes another call than the others hangs.", "anchors": ["src/libmugrid/file_io_netcdf.cc: open (174-290), close (293-311), define_global_attributes (931-1010), update_global_attribute_last_modified (1080-1135), todays_date, time_now (1941-1967), register_field_collection (64-171)", "src/libmugrid/file_io_netcdf.hh: update_global_attribute (1475-1558)"]}
{"id": "C150", "title": "All processes see the same attributes", "statement": "All processes of a program see the same value of every attribute of a file, dates and times included, and pass the same values to PnetCDF, which asks for that.", "quantifier": "all programs and clocks", "why_tests_cant": "The clocks of processes differ by chance.", "anchors": ["src/libmugrid/file_io_netcdf.cc: open (205-209), todays_date, time_now (1941-1967), update_global_attribute_last_modified (1080-1088)"]}
{"id": "C151", "title": "Processes that register collections together stay together", "statement": "Each process of an MPI program registers its part of the same global and local collections in a file, new or opened, one collection after the other; also in ways that are refused. No process waits for ever or makes another collective call than the others: in every execution all of them finish, with the same outcome of every registration and the same header of the file, and each has the object that a single process with its part of the domain would have if it knew the number of pixels of the local collections on all processes. Processes without pixels, of the domain or of a local collection, make no difference. Collections that can be saved alone and have different names are registered successfully by all processes; another number of processes with another division of the domain can open the file and uses the same variables.", "quantifier": "all numbers of processes, divisions of the domain, collections and files", "why_tests_cant": "Every number of processes and every division of the domain, including processes without pixels.", "anchors": ["src/libmugrid/file_io_netcdf.cc: register_field_collection (64-171), register_field_collection_global, _local (467-680), register_lfc_to_gfc_local_pixels (698-742), define_netcdf_dimensions, _variables (745-778), register_netcdf_dimension_ids, _variable_ids (797-862), add_field_dims_local (1227-1274)"]}
{"id": "C152", "title": "Matrix views of a field show its entries", "statement": "The matrix views of a field with column-major storage - one column per sub-point, or one column per pixel - hold exactly the entries of the field: row and column of every component, sub-point and pixel are given by a formula, every coefficient belongs to one entry, and writing a coefficient changes that entry and no other. The views exist for pixels that fill their memory without gaps (extents of at least two, or a local collection), and are refused with a FieldError before the initialisation of the collection and for pixels with gaps. Assigning a vector to a field without gaps sets its scalars in the order of its memory.", "quantifier": "all fields, component shapes, sub-points, pixel grids and strides", "why_tests_cant": "Every combination of component shape, sub-points, extents and strides.", "anchors": ["src/libmugrid/field_typed.cc: eigen_map (340-375), operator=(EigenRep_t) (414-417), eigen_sub_pt (477-492), eigen_pixel (495-512)"]}
{"id": "C153", "title": "Matrix views have the components of an entry in a column, whatever the storage order", "statement": "C152 also holds for fields with row-major storage, or the views are refused there.", "quantifier": "all fields", "why_tests_cant": "Tests use column-major collections.", "anchors": ["src/libmugrid/field_typed.cc: eigen_map (340-375), eigen_sub_pt (477-492), eigen_pixel (495-512)"]}
{"id": "C154", "title": "Errors carry their message and the chain of calls", "statement": "The text of an error begins with the message of the function that raised it. The rest lists the calls that led to it, outermost first: the longest run of calls with a known name, counted from the fourth of the at most 256 innermost, each with its file and readable name; nothing is printed about the calls outside the library whose names are not known. For the classes with one constructor of their own (errors of fields, collections, maps, files, units and NumPy arrays) the last call is the function that threw.", "quantifier": "all stacks, loaders and messages", "why_tests_cant": "A test sees the stacks of its own calls; depth, unknown names and missing files vary with program and platform.", "anchors": ["src/libmugrid/exception.cc: TracebackEntry, discover_name_and_file, Traceback (46-108)", "src/libmugrid/exception.hh: printing, ExceptionWithTraceback (130-140, 209-230, 276-300)", "src/libmugrid/options_dictionary.hh (49-61)", "src/libmugrid/field.hh (51-57)"]}
{"id": "C155", "title": "The last call in the text of an error is the function that threw it", "statement": "The last part of C154 for all classes of errors.", "quantifier": "all classes of errors", "why_tests_cant": "Tests compare the type of an error, not its text; optimised builds have other stacks.", "anchors": ["src/libmugrid/exception.hh: ExceptionWithTraceback (276-283, 316)", "src/libmugrid/options_dictionary.hh (49-61)"]}
{"id": "C156", "title": "The gradient of a field does not depend on the order of its pixels", "statement": "For column-major fields of collections on the same grid, in whatever order its pixels are stored, the gradient at every quadrature point of every pixel, read by component, sub-point and pixel, is the derivative of the nodal values read by component, node and pixel, with the periodic neighbours of the pixel. Component k * C + r of the gradient (C components of the nodal field) is the derivative of component r in direction k. Gradient and transpose of such fields are adjoint.", "quantifier": "all operators, grids, pixel strides, component shapes and fields", "why_tests_cant": "Every combination of discretisation, extents, strides and shapes; a test that compares memory does not see that neighbours are looked up in the order of the pixels.", "anchors": ["src/libmugrid/gradient_operator_default.cc: apply_gradient, apply_transpose (163-300)", "src/libmugrid/field_map.cc (60-110)"]}
{"id": "C157", "title": "Gradients of fields of different collections are right or refused", "statement": "C156 also holds if the two fields belong to different collections on the same grid, and a nodal field of another grid is refused.", "quantifier": "all pairs of fields", "why_tests_cant": "Tests take both fields from one collection.", "anchors": ["src/libmugrid/gradient_operator_default.cc: apply_gradient (163-220)"]}
{"id": "C158", "title": "Index arithmetic does not overflow", "statement": "Strides, numbers of pixels, volumes, the verdict on contiguity, indices of coordinates, coordinates of indices, buffer sizes, strides of fields in elements and bytes, and positions in strided copies are computed without overflow of the 64-bit integers and have the values of unbounded integers, provided that the grid has fewer than 2^63 points (extents of zero counted as one), strides stay within a buffer of 2^63 elements, and a field has fewer than 2^63 bytes. A collection whose domain has fewer than 2^31 points is initialised without overflow. Loops over field maps visit the positions of the entries in the buffer, each once and in order, for buffers with fewer than 2^63 scalars, and the indices of sub-points are exact as long as they fit 64 bits without sign; beyond this they wrap. Arithmetic ranges of 64-bit integers have the elements, size and subscripts of unbounded integers if start and rounded stop fit and the distance from start to stop together with the step is less than 2^63; otherwise the computation of the rounded stop may overflow. The volume of a larger grid is not a wrong number: its computation overflows.", "quantifier": "all extents, strides, locations, component shapes and element sizes within the bounds", "why_tests_cant": "The products that overflow belong to grids that no test allocates.", "anchors": ["src/libmugrid/ccoord_operations.hh: strides, get_index, get_ccoord, get_size (76-115, 254-333, 420-612)", "src/libmugrid/ccoord_operations.cc: contiguity, buffer size (83-174)", "src/libmugrid/field.cc: strides (205-276)", "src/libmugrid/field_typed.cc: resize (196-212)", "src/libmugrid/raw_memory_operations.hh (44-156)", "src/libmugrid/field_collection_global.cc: initialise (86-131)"]}
{"id": "C159", "title": "Grids with more pixels than an int can count are usable", "statement": "A global collection can be initialised for every domain of positive extents whose fields fit into memory, as the comment on Index_t says for 65536 x 65536 points.", "quantifier": "all domains with fewer than 2^63 points", "why_tests_cant": "Needs arrays of billions of points.", "anchors": ["src/libmugrid/grid_common.hh: Index_t (71-81), get_nb_from_shape (187-192)", "src/libmugrid/field_collection_global.cc: initialise (91-99, 125-127)"]}
{"id": "C160", "title": "Gradients are exact for affine fields and vanish on average for periodic ones", "statement": "If the shape functions of the elements add up to one and to the position (their derivatives add up to zero and, weighted with the positions of the nodes, to the unit matrix), then the gradient of a nodal field that is an affine function of the positions of the nodes is its slope at every quadrature point of every element without periodic neighbours. The sum over the grid of the gradient of every nodal field with one node per pixel (or equal sums at all nodes of the elements) is zero, at every quadrature point and for every component. The transpose applied to any field sums to zero over all nodes, component by component.", "quantifier": "all discretisations with 1 to 3 dimensions, grids, pixel strides, component shapes and fields, over any commutative ring", "why_tests_cant": "Holds for sums over whole grids and for all discretisations; tests check a few elements with rounding.", "anchors": ["src/libmugrid/gradient_operator_default.cc: constructor, apply_gradient, apply_transpose (48-339)"]}
{"id": "C161", "title": "Arrays on global and local collections keep their data in one file", "statement": "Programs hold data in arrays on fields of a global collection and of local collections and keep it in one file. They make calls on their collections, make the file, open it for reading or appending, add frames, write and read fields of any of the collections and end, one after the other, with any number of processes and any division of the domain; each process numbers the pixels of its local collections by its own part. After a program has written a frame of a field, then, as long as that frame of the field is not written again and the file is not made anew, reading it works and makes every array on the field, on any process of any later program, show at every pixel of the domain that is in its collection what an array of the writing program showed there. Arrays on other fields and the pixels of collections do not change. The pixels of a local collection are added in increasing order of their numbers; and local fields are read, or written to a file that was opened for appending, only if a field of the collection was written by the program that made the file.", "quantifier": "all designs (domain, fields, local collections with any pixels), programs, processes, divisions of the domain, orders of registration and sequences of calls, also when calls fail", "why_tests_cant": "Needs several programs with different divisions of the domain; local collections have other numbers for the same pixel on other divisions, which one program cannot show.", "anchors": ["src/libmugrid/file_io_netcdf.cc: register_field_collection_local, positions (577-742)", "src/libmugrid/file_io_netcdf.cc: transfers of local fields (2317-2700)", "src/libmugrid/field_collection_local.cc: add_pixel, initialise (41-90)", "language_bindings/python/bind_py_field_collection.cc: fields and arrays"]}
{"id": "C162", "title": "Collective operations in Python give every process the result", "statement": "In Python, sum gives every process the sum of the arguments of all processes if they are integers (or bool) whose sums, in whatever order they are added, fit into 32 bits, or the sum of floats if all are floats. cumulative_sum gives the process of rank i the sum of the arguments of ranks 0 to i, for such integers, for integers that all need 64 bits and whose sums fit into them, for floats and for complex numbers. bcast gives every process the argument of the root unchanged if the arguments of all processes are of one kind (floats, complex numbers, or integers in one of the ranges of int, of unsigned int only, or of 64 bits only). Without MPI the same calls return their argument: sum for floats and integers of 32 bits, the others for floats, complex numbers and integers of 64 bits. Arrays are accepted exactly if their elements have one of the five types, they are writeable, have one or two dimensions and are in Fortran order (vectors: adjacent elements), and the C++ code sees their extents. Communicator(x) has the number of processes of x, or there is an exception.", "quantifier": "all numbers of processes, arguments, roots and arrays", "why_tests_cant": "The choice of the C++ function depends on the value of the argument on each process; tests have a few small values and mostly one process.", "anchors": ["language_bindings/python/bind_py_communicator.cc: sum, cumulative_sum, gather, bcast (60-155)", "language_bindings/python/muGrid/Parallel.py: Communicator (44-83)", "src/libmugrid/communicator.hh (162-345, 379-430)"]}
{"id": "C163", "title": "Collective operations in Python work for all numbers", "statement": "C162 holds for all real and complex numbers and integers of 64 bits, whatever the other processes hand over, and for arrays in any order.", "quantifier": "all arguments", "why_tests_cant": "Needs values beyond 32 bits and several processes with different values.", "anchors": ["language_bindings/python/bind_py_communicator.cc: sum, cumulative_sum, bcast (60-155)"]}
{"id": "C164", "title": "Options of Python programs come back as they were given", "statement": "Integers of 32 bits, bool (as integers), floats and arrays of floats with two dimensions that can be written and have no negative strides can be put into a Dictionary by the constructor from a Python dictionary (nested to any depth), by the constructor from a key and a value, by add with a new key and by assignment to a key that is there; reading the key afterwards gives an object equal to the one that was put in, arrays with the same extents and elements. Nested dictionaries cannot be read with the index operator; this raises RuntimeError. Arrays of several elements that are not floats, cannot be written, have negative strides or other than one or two dimensions are refused with TypeError or RuntimeError.", "quantifier": "all such values, dictionaries and states of other dictionaries", "why_tests_cant": "Overload resolution depends on the value and type of the argument; tests have a handful of values.", "anchors": ["language_bindings/python/bind_py_options_dictionary.cc: (53-166)", "src/libmugrid/options_dictionary.cc: add, assignment (140-228)"]}
{"id": "C165", "title": "Options of Python programs come back as they were given, for all numbers and arrays", "statement": "C164 holds for all integers, real numbers, numbers of numpy, and arrays of floats with one or two dimensions.", "quantifier": "all such values", "why_tests_cant": "As C164.", "anchors": ["language_bindings/python/bind_py_options_dictionary.cc: (53-166)"]}
{"id": "C166", "title": "Coordinates and shapes given in Python reach the C++ code", "statement": "The components of a field are none by default, one axis for an integer of 64 bits, and the entries of any list, tuple or array of such integers; floats, complex numbers, larger integers, lists and tuples that contain one, and other objects raise TypeError. Coordinates of collections can be given as DynCcoord, or as list or tuple of at most three integers, and have exactly these entries; longer ones, numbers, and sequences that contain other numbers raise TypeError. get_domain_index and get_domain_ccoord are inverse to each other for all points and indices of domains with one to three dimensions and fewer than 2^31 points; points of another dimension raise TypeError. get_1d_cube, get_2d_cube and get_3d_cube repeat an integer or a float.", "quantifier": "all integers, sequences, domains, points and indices", "why_tests_cant": "Overload resolution depends on type and value of the arguments; the functions are inverse on every domain.", "anchors": ["language_bindings/python/bind_py_common_mugrid.cc: (83-156)", "language_bindings/python/bind_py_field_collection.cc: registration of fields (67-166, 223-322), coordinates (463-496)", "src/libmugrid/ccoord_operations.hh: get_ccoord, get_index (337-350, 464-476)"]}
{"id": "C167", "title": "Coordinates and shapes given in Python are checked", "statement": "Numbers that are not integers are refused as numbers of components and coordinates, arrays of integers are accepted as coordinates, get_domain_ccoord refuses indices outside of the domain, get_domain_index is right for all domains, and units can be made without a tag as in C++.", "quantifier": "all arguments", "why_tests_cant": "As C166.", "anchors": ["language_bindings/python/bind_py_common_mugrid.cc: (83-156, 186-196)", "src/libmugrid/units.hh (169-190)"]}
{"id": "C168", "title": "Collections made in Python are those of C++", "statement": "GlobalFieldCollection and LocalFieldCollection, called with the dimension or with the domain in lists, tuples or DynCcoords, with arguments by position, by keyword in any order, or left out, make the collection that the C++ constructor with these arguments makes, and raise its exceptions; initialise does what the C++ function does. A collection made from a domain is the one made from its dimension, sub-points and order and then initialised with the domain. A domain of one to three positive extents with fewer than 2^31 points gives an initialised collection without fields that has these pixels, one after the other in the storage order of the collection.", "quantifier": "all ways to pass the arguments, all domains, sub-domains, strides, orders and numbers of sub-points", "why_tests_cant": "Overload resolution depends on types, values, positions and names of the arguments; tests call a few combinations.", "anchors": ["language_bindings/python/bind_py_field_collection.cc: constructors and initialise (455-519)", "src/libmugrid/field_collection_global.cc (41-150)", "src/libmugrid/field_collection_local.cc (41-63)"]}
{"id": "C169", "title": "The arguments for collections in Python are checked", "statement": "Arrays are accepted as domains and never taken for a dimension, strides and orders of pixels can be given without sub-points as in C++, the dimensions of collection, domain and sub-domain agree, sub-domains are not larger than the domain, and pixels keep the index they were added with.", "quantifier": "all arguments", "why_tests_cant": "As C168.", "anchors": ["language_bindings/python/bind_py_field_collection.cc: constructors and initialise (455-519)", "src/libmugrid/field_collection_global.cc: initialise (86-131)", "src/libmugrid/field_collection_local.cc: add_pixel (54-63)"]}
{"id": "C170", "title": "Typed getters in Python give fields of their type only", "statement": "get_real_field, get_complex_field, get_int_field and get_uint_field give the field of the name exactly if it was registered with this type of scalars, and raise RuntimeError for a field of another type and an unknown name. A field that a program registered stays available from the getter of its type, and refused by the others, whatever the program does afterwards.", "quantifier": "all collections, names, types and further calls of the program", "why_tests_cant": "The getters cast without a check of their own after comparing types; tests try a field or two.", "anchors": ["language_bindings/python/bind_py_field_collection.cc: typed getters (394-431)", "src/libmugrid/field.cc: assert_typeid (69-77)"]}
{"id": "C171", "title": "Maps in Python set and average the entries of a field", "statement": "For a field of an initialised collection without padding, set_uniform of a map over pixels or sub-points, with any number of rows that was accepted, called with a matrix of the map's shape and type makes every value of the field the element of the matrix at its place, and changes no other field; matrices of another shape are refused and change nothing. mean gives a new matrix whose elements are the means over the entries; after set_uniform it is the matrix that was set, where dividing undoes repeated addition. No number of rows and -1 give the default shape, floats raise TypeError.", "quantifier": "all fields, maps, numbers of rows and matrices", "why_tests_cant": "Holds for all shapes, strides and numbers of points; numpy stores by rows, maps by columns.", "anchors": ["language_bindings/python/bind_py_field.cc: get_pixel_map, get_sub_pt_map, mean, set_uniform (135-175)", "src/libmugrid/field_map.hh: assignment (151-168)", "src/libmugrid/field_map.cc: sum, mean (219-245)", "src/libmugrid/field_typed.cc (517-540)"]}
{"id": "C172", "title": "Maps in Python accept values and average integers", "statement": "set_uniform accepts numbers, lists, arrays of other types and arrays that cannot be written; mean is the mean also of integer fields; a number of rows of zero raises an exception.", "quantifier": "all values, fields and numbers of rows", "why_tests_cant": "As C171.", "anchors": ["language_bindings/python/bind_py_field.cc: get_pixel_map, get_sub_pt_map, mean, set_uniform (135-175)", "src/libmugrid/field_map.cc: constructor, mean (70-99, 236-245)"]}
{"id": "C173", "title": "Steps of state fields in Python are checked", "statement": "current() of a state field is old(0), old() is old(1), and old(n) is the field of n steps ago; numbers of steps beyond the memory raise IndexError, negative integers, floats and complex numbers TypeError.", "quantifier": "all state fields and numbers", "why_tests_cant": "Conversions depend on the value; tests go back one step.", "anchors": ["language_bindings/python/bind_py_state_field.cc: current, old (62-92)", "src/libmugrid/state_field.cc: current, old (100-110)"]}
{"id": "C174", "title": "Frames of a file in Python", "statement": "An iterator over a file gives the frames that the file has when the iterator is made, from the first to the last, and then StopIteration for ever, whatever the program does in between: use other iterators, append frames, read or write. reversed(file) gives the same frames in the opposite order. len(file) counts the frames; file[k] is frame k for 0 <= k < len, frame len + k for -len <= k < 0, RuntimeError for other integers (except len, see C175), TypeError for floats and other objects. A frame from an iterator, an item in this range or append_frame can be read and written for the rest of the program, all fields or exactly those in a list of names; read and write of the file take the same integers, without len; a single string, or a list with something other than strings, raises TypeError.", "quantifier": "all numbers of frames, programs and numbers of calls, all names", "why_tests_cant": "Iterators and appended frames interleave in unboundedly many ways; tests loop over a file once.", "anchors": ["language_bindings/python/bind_py_file_io.cc: __getitem__, __len__, __iter__, append_frame, FileFrame, read, write (129-163, 178-206)", "src/libmugrid/file_io_base.cc (45-113)", "src/libmugrid/file_io_base.hh: iterator (449-545)"]}
{"id": "C175", "title": "Only frames that exist can be made in Python", "statement": "file[len(file)] raises an exception, indices out of range raise IndexError as for other sequences, and FileFrame(file, k) is made for existing frames only.", "quantifier": "all files and indices", "why_tests_cant": "As C174.", "anchors": ["language_bindings/python/bind_py_file_io.cc: __getitem__, FileFrame (134, 147)", "src/libmugrid/file_io_base.cc: operator[] (45-67)"]}
{"id": "C176", "title": "Subscripts of arithmetic ranges are checked in builds with assertions", "statement": "In builds with assertions, the subscript of an arithmetic range whose bound lies on the side of its step gives the elements of the range, and ends the program for every other position.", "quantifier": "all starts, bounds, steps and positions", "why_tests_cant": "Steps of either sign and all positions.", "anchors": ["src/libmugrid/iterators.hh: ArangeContainer::operator[] (292-296)"]}
{"id": "C177", "title": "Subscripts of field maps are checked in builds with assertions", "statement": "In builds with assertions, the subscript of a field map over an initialised collection gives the entries that iteration visits, and ends the program for every other position.", "quantifier": "all fields, maps over pixels and points, dynamic and static, mapped fields, and positions", "why_tests_cant": "Numbers of pixels, points and paddings, and all positions.", "anchors": ["src/libmugrid/field_map.hh: operator[] (295-309)", "src/libmugrid/mapped_field.hh: operator[] (177-181)", "src/libmugrid/field_map_static.hh: operator[] (237-251)"]}
{"id": "C178", "title": "Gathering is checked in builds with assertions", "statement": "In builds with assertions, gather gives what it gives without them if all matrices with rows have the same number of rows. Otherwise the program ends on every process whose matrix has rows, but fewer than that of another process, and there is such a process.", "quantifier": "all numbers of processes and matrices", "why_tests_cant": "Tests run with a few processes and matrices.", "anchors": ["src/libmugrid/communicator.hh: gather (255-332)"]}
{"id": "C179", "title": "Collections are registered with a file one after the other", "statement": "A file open for reading or appending accepts field collections registered one after the other whenever it accepts each of them alone, for variables whose attributes have types the library can read.", "quantifier": "all files, variables, attributes and values", "why_tests_cant": "Values of the attributes, among them those that differ from themselves.", "anchors": ["src/libmugrid/file_io_netcdf.cc: register_field_collection (64-171), register_netcdf_attribute_values (895-928), NetCDFAtt::equal_value (1737-1793)"]}
