# Formal model of libmugrid: design

Everything here is about the C++ sources in `/repo/src/libmugrid` (and a few Python bindings in `/repo/language_bindings/python`) read as text.
Nothing in `/repo` is built or run.
`properties.jsonl` lists the properties, `MANIFEST.json` the theorems for each, `seeded/LOG.jsonl` the wrong programs the theorems were tested against. There, a theorem counts as failed if its proof, or one it rests on, no longer goes through, or takes more than 150 seconds for its file; that need not mean that the theorem is false of the wrong program.

## Method

* Language: Rocq / Coq 8.16.1, sources in `rocq/theories`, logical prefix `Verif`.
* One area has up to four kinds of files.
  * `XModel.v`: executable Gallina definitions, each with a comment citing file and lines, and any simplification.
  * `XSpec.v`: the small vocabulary the theorems are stated with. It does not use the helpers of the model.
  * `XProofs*.v`: lemmas.
  * `XProps.v`: only the property theorems, named `Cnn_...`, each with a concrete non-trivial `Example` beside it and followed by `Print Assumptions`.
* The outcome of an operation is `Ok`, `Err e` (a C++ exception) or `UB` (out-of-bounds access, division by zero, use of freed memory, signed overflow where a property is about it).
* Operations that change state before they throw return the changed state together with the outcome.
* Integers are `Z`. Conversion to the 32-bit `Dim_t`/`int` is explicit (`wrap32`) where it matters to a property. 64-bit overflow is modelled in `Mach*` only, which shows for the arithmetic of grids, fields and copies that it does not occur within stated bounds (C158); the other models assume these bounds.
* `std::sort` is a relation: any ordered permutation, so theorems hold for stable and unstable sorts. `std::map` is a list ordered by key.
* Reals are an arbitrary type, an arbitrary commutative ring, or a ring with the operations in question as parameters. Rounding is not modelled.
* Stateful parts are step functions. Properties about histories are proved by induction over lists of operations.
* Loops without a structural bound carry fuel. Theorems say that the fuel suffices, or hold for every amount.
* MPI collectives are functions of the list of the arguments of all ranks.
* A property that is false of the model has a `..._refuted` theorem with a witness, and beside it the strongest positive theorem found, named `..._partial` or listed under another property.
  Such properties have status `partial` in the manifest, with a note that begins with "Refuted".

## Trusted base

* Coq's kernel (8.16.1), including its virtual machine (`vm_compute` in examples and witnesses).
* `Print Assumptions` says "Closed under the global context" for every theorem in the manifest. No axiom is used, neither from the standard library nor our own.
* Only the Coq standard library is imported. Loading it brings seven parameters of `Coq.ssr.ssrunder.Under_rel` (the interface of ssreflect's `under` tactic) into the environment; no theorem depends on them.
* That the definitions in `*Model.v` say what the cited lines do. This is by reading; the comments give the lines.
* External code, assumed to behave as documented:
  * the C++ standard library (containers, `std::sort`, shared pointers);
  * MPI (reductions, scan, `Allgatherv`, broadcast);
  * the NetCDF library (variables are arrays over their dimensions; `put_varm`/`get_varm` transfer a box of elements between file and memory; define and data mode, attribute and name rules as in `AttModel.v`);
  * Eigen (storage of matrices, `Map` and `Ref` semantics, correctness of inverse and eigen-decomposition, the latter as parameters of the theorems);
  * pybind11 and numpy (an array is shape, byte strides and item size).

## What is modelled, and how it is proved

| properties | files | source | proof |
|---|---|---|---|
| C01-C05, C47 | `Grid*` | `ccoord_operations.hh` 76-820 (strides, axes order, index/coordinate, pixel iteration, contiguity, buffer size), `ccoord_operations.cc` | induction over the axes in stride order (mixed radix digits); refutations for ties and extents of one |
| C06 | `CIntModel`, `Grid*` | `grid_common.hh` 187-192, `raw_memory_operations.hh` 49-52 | induction, boundary witness |
| C07, C08 | `Strided*` | `raw_memory_operations.hh`, `.cc` | odometer invariant, injectivity, frame |
| C09-C12, C48, C49 | `Layout*` | `field.cc`, pixel part of `field_collection_global.cc`, `field_collection_local.cc`, sizes in `field_typed.cc` | compositional embedding lemmas for strides |
| C13, C14, C20, C24, C25, C50-C55 | `Field*` | `field_typed.cc`, `field_map.cc`, `field_map.hh` | from C07; list inductions; stale pointers by allocation generations |
| C15-C21, C56-C59 | `Registry*` | `field_collection.hh`, `.cc`, `_global.cc`, `_local.cc`, `field_typed.hh` 548-678 | invariant over lists of operations |
| C22, C23, C60, C61 | `State*` | `state_field.hh`, `.cc`, `state_field_map.hh`, `.cc` | refinement to a history; refutation by the index initialisation |
| C26-C30, C46 | `Units*` | `units.hh`, `.cc`, `physics_domain.hh`, `.cc` | gcd, normal forms, group and order laws |
| C115, C116 | `UnitPrint*` | printing in `units.cc` 182-249, 456-484 and `physics_domain.cc` | the bytes printed are uniquely decodable |
| C31, C62, C63 | `Dict*` | `options_dictionary.hh`, `.cc`, `bind_py_options_dictionary.cc` | heap invariant, frame and alias laws over operation lists |
| C32-C34, C70-C72 | `Ring*`, `Grad*` | `gradient_operator_default.hh`, `.cc` | runs as lists of block updates; finite sums over a commutative ring |
| C35, C77-C81, C103 | `Numpy*` | `numpy_tools.hh`, `WrappedField` in `field_typed.cc`, `bind_py_field.cc` 87-91 | soundness of the stride analysis; witnesses |
| C36, C67, C68 | `Frame*` | `file_io_base.cc`, `file_io_base.hh` 449-545, `file_io_netcdf.cc` 429-452 | invariant over operation lists |
| C37-C39, C82-C85 | `NetCDF*` | `file_io_netcdf.cc` (names, dimensions, variables, registration, write, read) | boxes of ranks tile the domain; write/read as functions on cells |
| C127-C130 | `Dim*` | `file_io_netcdf.cc` 64-171, 467-862, 1150-1289, 3220-3271 (list of dimensions of a file object, several collections, numbers in the file) | the object as state and exceptions; invariant that a name is the name of one dimension, over lists of registrations |
| C131-C133 | `Session*` | `file_io_netcdf.cc` 174-290, 313-393, 698-742, 2528-2692, 3188-3219, 3282-3312 (whole programs: create, append, write, read, reopen; several variables, local collections, decompositions) | state machine over all sequences of operations; invariant relating the positions of local pixels in memory and in the file; last write is read |
| C138-C141 | `Par*` | the lines of `Session*` built with MPI: every process with its own state and program, collective calls, independent transfers between `ncmpi_begin_indep_data` and `ncmpi_end_indep_data` | small-step interleaving; every phase between two collective calls consists of accesses of different processes that commute; simulation of `SessionModel.v`, for all orders |
| C142-C143 | `PyLife*` | which Python objects keep which C++ objects alive: all bindings of collections, fields, state fields, maps, pixels, files and frames (bind_py_*.cc), the rules of pybind11 for results | objects with references, reachability from the variables of the program; invariants for all programs |
| C144-C145 | `PyArray*` | Python programs that hold arrays of fields while they register fields, initialise, assign and write (bind_py_field.cc:88-134, on top of `Registry*` and `Numpy*`) | the storage of an initialised collection stays in place under every call from Python (invariant); writes through views |
| C146 | `Stack*` | programs with one global collection per process, arrays on its fields and a file: registration by name in any order (file_io_netcdf.cc:467-573), transfers from and to the memory of the fields, one program after the other (on top of `PyArray*` and `Session*`) | refinement: every call on arrays or the file is a number of operations of `Session*`; the memory of fields stays in place (invariant) |
| C147-C148 | `Resume*` | the same programs with state fields: registration (bind_py_field_collection.cc:168-223, 324-378), cycling and arrays of old states (bind_py_state_field.cc:66-75), variables for state fields (file_io_netcdf.cc:494-525, 2942-2948, 3183-3213); checkpoints (on top of `Stack*`, `State*` and `Session*`) | refinement to `Session*` as for `Stack*`; the values of all states determine those after any computation if the state fields rotate (simulation) |
| C149-C150 | `Head*` | the functions of `Att*` in a parallel program: every process has its own object, clock and copy of the header; all calls of the library are collective (file_io_netcdf.cc:174-311, 762-1135, 1941-1967; .hh:1412-1558) | relational: processes whose attributes differ in values only make matching calls (logical relation over the continuations), so programs never get stuck; refinement to `AttModel.v` with the clock of process 0 |
| C151 | `Crew*` | registration of collections in a parallel program (`Dim*` on every process): sums over processes, definition of dimensions and variables, search in a file that exists, entering and leaving define mode (file_io_netcdf.cc:64-171, 467-862, 1227-1274) | relational as for `Head*`: no check depends on the part of the domain that a process has, so all processes take the same branches; refinement to `DimModel.v` for every process |
| C117-C119 | `IoType*` | `file_io_netcdf.hh` 124-205, `file_io_netcdf.cc` 837-862, 2230-2302, 2396-2428 (types of variables, pointers into memory) | memory as bytes; refinement of the value-level transfer of `NetCDF*` |
| C86-C92 | `Map*` | `field_map_static.hh`, enumerations in `field_map.cc`, index ranges in `field_collection.cc` | agreement with the dynamic maps of `Field*`; list inductions over blocks |
| C125, C126 | `Life*` | `preregister_map`, `initialise_maps`, `pop_field` in `field_collection.cc`, constructors, move and `set_data_ptr` in `field_map.cc` (lifetimes, callbacks) | objects with identities; invariants over histories that interleave maps, fields and the collection |
| C152, C153 | `Eigen*` | `eigen_map`, `eigen_sub_pt`, `eigen_pixel`, assignment of a matrix in `field_typed.cc` | bijection between coefficients and entries, from the layout of `Field*` and the contiguity verdict of `Grid*` |
| C154, C155 | `Err*` | `exception.hh`, `.cc`, the classes derived from `RuntimeError` | list inductions; the C library's view of the stack is a parameter |
| C156, C157 | `GradField*` | `apply_gradient`, `apply_transpose` on fields of collections | refinement to C33 through the layout of `Field*` |
| C160 | `GradExact*` | the same functions | from the formulas of C32, C33 and C156: sums over the grid are invariant under shifts |
| C161 | `Mix*` | the programs of `Stack*` with local collections besides the global one: registration of local collections (file_io_netcdf.cc:577-742), positions of their pixels in the file, transfers of local fields (on top of `Stack*` and `Session*`) | refinement: every program is one of `Session*`, with the invariant that collections keep pixels, fields and arrays; numbers of pixels agree with those of the hidden field of positions |
| C158, C159 | `Mach*` | the index arithmetic of `ccoord_operations.hh`/`.cc`, `field.cc`, `raw_memory_operations.hh`, `GlobalFieldCollection::initialise`, loops over maps and sub-points (`MachIter*`) and arithmetic ranges (`MachRange*`) with 64-bit integers | equality with the models over `Z` within stated bounds |
| C162, C163 | `PyComm*` | the communicator in Python: `bind_py_communicator.cc:60-155`, `muGrid/Parallel.py:44-83`; overloads of pybind11 for numbers and arrays | every process chooses the overload from its argument; the operations are those of `Comm*` |
| C164, C165 | `PyDict*` | `Dictionary` in Python: `bind_py_options_dictionary.cc:53-166` | on top of `Dict*`: choice of overloads by value (rules of `PyCommModel.v`), arrays of numpy with extents, elements, flags |
| C166, C167 | `PyArg*` | coordinates, shapes and numbers as arguments in Python: `bind_py_common_mugrid.cc:83-156, 186-196`, `bind_py_field_collection.cc:67-166, 223-322, 463-496` | choice of overloads by value; on top of `Grid*` and `Coord*` |
| C168, C169 | `PyColl*` | constructors and `initialise` of collections in Python: `bind_py_field_collection.cc:455-519`, with `field_collection_global.cc:41-150`, `field_collection_local.cc:41-63` | positions, keywords, defaults, choice of overloads; on top of `PyArg*` and `Registry*` |
| C170-C173 | `PyMap*` | typed getters, maps and state fields in Python: `bind_py_field_collection.cc:394-431`, `bind_py_field.cc:135-175`, `bind_py_state_field.cc:62-92`, with `field.cc:69-77` | choice by type and value; on top of `Registry*`, `Field*`, `State*`, `PyArray*` and `PyArg*` |
| C174, C175 | `PyFrame*` | frames in Python: `bind_py_file_io.cc:129-163, 178-206`, `make_iterator` of pybind11, `reversed` of Python | programs of calls on one file, invariant of every iterator; on top of `Frame*` and `PyArg*` |
| C121-C124 | `Pixels*` | `Pixels<Dim>`, `get_dimensioned_pixels`, `get_cube`, `get_vector`, `compute_volume`, `compute_pixel_volume` in `ccoord_operations.hh`/`.cc` | reduction to the dynamic pixels of `Grid*`; induction over the dimensions, exact rationals |
| C93-C102, C120 | `Clone*` | `mapped_field.hh`, `mapped_state_field.hh`, `optional_mapped_field.hh`, `clone` and `safe_cast` in `field_typed.cc`, `detached_field` in `field_collection.hh`, `get_empty_clone` and `add_pixel`, `state_field_map_static.hh` | from `Registry*`, `Field*`, `Map*` and `State*`; induction over the pixels added |
| C104, C105 | `Coord*` | `DynCcoord` and `ipow` in `grid_common.hh`, `__getitem__` in `bind_py_common_mugrid.cc` | refinement of lists; the other models use the lists |
| C106-C114 | `Att*` | `file_io_netcdf.cc`, `.hh` (open, close, define and data mode, global attributes, units of variables) | the rules of the NetCDF library as a state machine; invariants relating it to the object over operation lists |
| C134-C137 | `PyAtt*` | `bind_py_file_io.cc` 205-328, `file_io_netcdf.cc` 1565-1680 (attributes in Python programs, typed values, text) | on top of `Att*`: choice of overloads by value, bytes and binary64 floats as integers; dictionaries over lists of calls |
| C179 | `AttAgain*` | `file_io_netcdf.cc`: attributes of variables read a second time (`AttModel.v`) | inductions over calls and variables; bits of a NaN |
| C178 | `CommDebug*` | `communicator.hh`: `gather` with assertions | list inductions |
| C177 | `MapDebug*` | `field_map.hh`, `field_map_static.hh`: `operator[]` with assertions | arithmetic over the lemmas of `Field*` |
| C40, C64, C65, C176 | `Iter*` | `iterators.hh` | list inductions |
| C41-C43, C73-C76 | `Tensor*` | `tensor_algebra.hh`, `eigen_tools.hh`, `T4_map_proxy.hh` | finite sums over a commutative ring |
| C44, C69 | `Comm*` | `communicator.hh` | inductions over the ranks |
| C45, C66 | `Sqrt*` | `cpp_compliance.hh` / `eigen_tools.hh` (`ct_sqrt`) | binary search invariant |

## Not modelled

* pybind11, beyond its rules for choosing overloads and converting strings and lists of numbers (`PyAttModel.v`), numbers, arrays and keywords (`PyCommModel.v`, `PyDictModel.v`, `PyArgModel.v`, `PyCollModel.v`, `PyMapModel.v`), and names and iterators (`PyFrameModel.v`), which are trusted as stated there.
* Floating-point rounding, 64-bit overflow outside `Mach*` (iteration over pixels, file positions, gradient), allocation failure, concurrency inside a process.
* MPI: failure of processes and message order. `Par*` has the processes of programs that use files at their own pace: a collective call starts when all have made it and returns when all have done their part (the library may wait less), the length of the unlimited dimension is known to all at once, and data is visible to all processes once written (the consistency rules of MPI-IO are not modelled); calls that define attributes, dimensions and variables are left out there; `Head*` has those for attributes and variables: all collective, the header in the file is that of process 0, arguments that differ in values of attributes are let pass, any other difference leaves the program stuck; `Crew*` has those for dimensions and variables of collections in the same way. Elsewhere several processes appear only through the collectives and through the boxes they own.
* Python: the interpreter. `PyLife*` and `PyArray*` rest on the rules of CPython, numpy and pybind11 2.11.1 that are listed at the top of `PyLifeModel.v` and `PyArrayModel.v`; reference cycles, threads and negative indices are left out, and programs with arrays (`PyArray*`) use one collection that exists all the time. Programs with arrays and a file (`Stack*`, `Resume*`, `Mix*`) use one global collection per process and no attributes; only `Resume*` has state fields, only `Mix*` local collections; a failed initialisation of the collection is taken to leave its domain and position as they were.
* Object lifetimes, except where a property is about them (`data_ptr` of a field, nodes of a dictionary).
* The NetCDF library itself beyond the rules stated in `AttModel.v` (define and data mode, names, growth of attributes) and the transfer of boxes; conversion of types by the parallel library (the serial one, as it is called here, does not convert, see `IoTypeModel.v`).
* The numerical accuracy of Eigen's inverse and eigen-solver.
* pybind11 glue other than the lines cited.
* Texts of error messages beyond `Err*`, `version.cc.skeleton`, `cpp_compliance.hh` apart from what the table names.
* Compile-time dispatch of templates: each modelled function stands for all its instantiations, and where instantiations differ they are separate definitions.

## Findings in the code

Each is a `..._refuted` theorem, or a case excluded by an explicit hypothesis.

* Strides and pixels: extents of one make the stride sort ambiguous, so index and coordinate are not inverse (C47); the buffer size is too small for strides that are not nested (C04); element counts are 32-bit (C06); statically dimensioned pixels do not check contiguity when iterated (C122); the pixel volume ignores a dimension mismatch (C124); `Pixels::get_index` calls a function that does not exist, and `get_neighbour` has no definition (not modelled).
* Domains with 2^31 points or more are refused or overflow the loop over their pixels, although indices have 64 bits (C159).
* In Python, collective operations on scalars choose the C++ type from the argument of each process: processes with arguments of different kinds make calls of MPI that do not match, `sum` turns integers of more than 32 bits into floats and `numpy.float32` into integers, `cumulative_sum` wraps at 2^32 for arguments of 2^31 and more, and matrices in the default order of numpy are refused (C163).
* In Python, numbers that are not integers (`numpy.float32`, arrays with one float) are rounded to numbers of components and coordinates, `get_domain_ccoord` does not check the index, units cannot be made without a tag (C167); the state fields of unsigned integers are called `unint_state_field` (not modelled).
* In Python, `GlobalFieldCollection(numpy.array([4]))` has dimension 4 and no domain, strides of pixels need `sub_pts`; dimensions of collection, domain and sub-domain are never compared (C169).
* Strided copy: zero-dimensional arrays are undefined behaviour, 2^31 elements wrap (C07).
* Field layout: pixel strides of row-major fields with several sub-points alias (C48); "same layout" ignores component counts (C49).
* Fields: assignment to a local field copies raw buffers and overruns on a size mismatch (C50); `+=` adds raw buffers of different orders (C51); per-pixel maps visit padding (C52); negative and zero row counts are accepted (C53); matrix views of row-major fields mix components and pixels (C153); maps go stale after reshape and pad changes (C54); pushing a block reads contiguous memory (C55).
* Collections: failed initialisation leaves fields sized (C56); pad size before initialisation makes the field unusable (C57); zero sub-points are accepted (C58); `push_back` is accepted after initialisation (C59).
* State fields: with `nb_memory + 1` not a power of two two states share a field (C60), and a program continued from a file differs from the one that wrote it (C148); failed registration leaves sub-fields behind (C61).
* Dates and times in attributes come from the clock of each process: processes that create a file together may see different values and pass different values to a collective call of PnetCDF (C150).
* Units: default exponent is 0/0, exponent arithmetic overflows (C26, C30); the consistency check of a domain ignores the tag, and the predefined heat domain always fails it (C46); a dimensionless unit with a tag prints as the empty string (C116).
* Dictionaries: a dictionary assigned to an entry is lost (C62); self-assignment of a matrix reads freed memory (C63). From Python, vectors come back as columns, large integers become floats with `add` and are refused otherwise, `numpy.float32(2.5)` becomes 2 (C165).
* Gradient: weights are selected by pixel, not quadrature point (C70); node indices are not checked (C71); sub-domains index out of bounds (C72).
* Tensors: one-dimensional tensors of rank two are transformed once (C73); `Iasymm` is not the antisymmetriser (C74); `logm` divides by zero for repeated eigenvalues (C75) and returns an expression that refers to a local object (not modelled); `get` ignores the storage order of the expression (C76).
* Coordinates: dimensions given as a number are not checked, assignment leaves old entries, the remainder ignores a dimension mismatch, the power ignores a negative exponent (C105).
* Errors: a `RuntimeError` does not name the function that threw it, a `KeyError` names its own constructor (C155).
* Gradient: the fields' collections are not compared, so two orders of pixels give a wrong derivative and a smaller nodal field is overrun (C157).
* Registering collections one after the other with a file open for reading or appending: the attributes of variables registered before are read again and compared with themselves; a `double` NaN, for instance a fill value set by another program, is not equal to itself, and every further registration throws (C179).
* Iterators: enumeration with an offset drops elements (C64); ranges with the stop on the other side do not end (C65). In builds with assertions, the subscript of an arithmetic range ends the program for every element if the step is negative, and lets positions beyond the end pass (C176); the subscript of a field map lets the position after the last pass, of maps over pixels all positions up to the number of points, and ends the program for entries of padded buffers (C177).
* `ct_sqrt`: overflow above 92680, endless recursion for non-positive arguments (C66).
* Communicator: blocks with a column gap are sent as contiguous memory (C69); the size of a gather is sent as `int` (noted in the model).
* numpy: transposed components, slices and broadcast axes are accepted and misread (C77, C78); strides of a wrapped field of unknown order are in elements, and `set_zero` misses elements of an array with padded pixels and clears the padding instead (C79); C-ordered arrays whose first extent is one are refused (C81).
* Files: the index one past the last frame is accepted (C67); writing a variable without frames fails in an empty file (C68); names with `__` and scalar fields on several sub-points are refused (C82); the order of local pixels is lost (C83); pixel counts and shapes are not compared on reading (C84, C85); fields with complex elements cannot be registered, nor can collections that contain one (C118); the type of a variable in the file is not compared with the type of the field: reading overruns the memory or takes bytes of one type for another (C119); a field with the name of a local collection makes the file object unusable (C128); a field with the name of a field of a state field of another collection is silently not saved (C129); the dimensions of a refused collection stay (C130); reading a local field before its first write destroys the positions of its pixels (C132); a local field whose collection was not written by the run that creates the file cannot be written by later ones (C133).
* Parallel files: reading a local field from a frame that was appended but not written, or writing it to a file opened for reading after something of its collection was read, throws on the processes that have pixels of it, and the others wait for ever in `ncmpi_end_indep_data`; reading a local field with a frame index that is too negative throws everywhere and leaves the library in independent mode, in which fields of global collections can be neither written nor read (C140). Writing a local field to a file opened for reading reports success if nothing of its collection was read before (C141).
* Python: arrays from the properties `s` and `p`, field maps, iterators over pixels and frames, and frames do not keep alive what they refer to (`keep_alive` has no effect in `def_property`), and a file does not keep alive the collections registered with it; using them after the rest was given up is undefined (C143). Arrays taken before the collection is initialised have memory of their own, so what is written to them is lost, and assigning to the property then writes to a null pointer; an array taken between a failed and a successful `initialise` can designate memory that is gone (C145).
* Python attributes: integers beyond 64 bits, and integers beyond 2^53 beside a float, are rounded without notice (C135); a list of floats cannot be updated with integers, nor small integers with large ones (C136); `get_value_as_string` prints to standard output and returns text that does not depend on the value (C137).
* Attributes of files: a refused renaming changes the object (C108); the unit in the file is compared with itself, by length only, and a longer one overruns a buffer (C109); closing fails for illegal attribute names, changed or missing time stamps (C110); a failed registration cannot be corrected (C112); more than thirty attributes are lost, and attributes of other types make opening fail (C113); in append mode a change of an attribute before the registration makes writing fail (C114).
* Maps: a statically sized map that is not const does not check that its collection is initialised (C88); an entry of the map as argument of `+=` and `-=` changes on the way (C89); the mean of a statically sized map without entries divides by zero (C90); a dynamic map over pixels enumerates the indices of sub-points (C92); a field removed from its collection and destroyed while a map waits for the initialisation makes the initialisation follow a dangling reference, and a removed field that is kept is never allocated although its map reports to be ready (C126).
* Copies: a mapped field or mapped state field whose map is refused leaves its fields registered (C94); `clone` of a field with several component axes fails after registering in global collections and loses the shape in local ones (C96); a field detached before initialisation is never allocated (C98); `get_empty_clone` of a global collection drops storage order and pixel strides (C100); a pixel can be added twice (C101). `StaticStateFieldMap::get_current_static() const` binds a constant map to a reference that is not constant and cannot be instantiated (not modelled).
