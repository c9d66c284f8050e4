# Formal model of heFFTe in Rocq: design

The model is written by reading `/repo` (nothing of it is built or executed).  This file is
kept current: sections 1-3 fix the approach, section 4 is the per-property plan, section 5 the
trusted base, section 6 the findings (places where the faithful model refutes a property).

## 1. Layout

* `rocq/theories/*.v` model files: Gallina functions that follow the C++ function by function;
  every definition cites file and lines.
* `Spec*.v`: small independent specifications (what a box contains, what a tiling is, what the
  memory layout of a box is, what a DFT is ...). They do not use the model's helpers.
* `*Proofs.v`: lemmas; `*Final.v`: the proofs of the property theorems; `*Examples.v`: concrete cases.
* `Prop*.v`: the property theorems only, each closed with `exact`, each followed by
  `Print Assumptions` and by an `Example` showing that a non-trivial case meets the hypotheses.

## 2. Modelling conventions

* C++ `int`, `long long`, `size_t` index arithmetic is modelled in `Z` without overflow, except in
  the theorems that are about truncation and overflow (C08, C37, C41, C51).  Ranks are positions in lists.
* `std::vector`/arrays of boxes are lists; numerical arrays are buffers (`Mem.v`): a length and a
  partial function from positions to values. A read of a position outside of the buffer or never
  written, and a write outside of the buffer, give the outcome `None`.
* Undefined behaviour, exceptions and non-termination are distinct outcomes (`None`/error
  constructors), never silently totalised.
* Floating point is replaced by exact arithmetic: complex numbers are pairs over Coq's `R`
  (`Complex.v`).  Only C43 is about rounding: there every operation of the built-in FFT and of the scaling may have a
  relative error (the standard model; no overflow, underflow or special values). Theorems that do not depend on the scalars hold for any
  type of scalars.
* MPI is modelled by the semantics of the MPI standard for the calls that are used: collectives
  deliver block i of rank j to block j of rank i; `Irecv/Send/Isend/Waitany/Waitall` are modelled as
  a small-step system with arbitrary interleaving.
* Vendor FFT libraries (FFTW, MKL, cuFFT, rocFFT, oneMKL) are oracles: the parameters heFFTe passes
  are modelled, the meaning of the parameters is taken from the vendor's documentation.

## 3. Not modelled

The text format of the trace files, MAGMA helpers except for the number of scalars (C51), the benchmarks except for the calls they make, memory
alignment outside C34 and C53, rounding errors outside C43 (the FFTs of other libraries are exact), underflow and special values of
floating-point numbers, integer overflow outside C08, C37, C41 and C51 (for example in the trees of the built-in FFT).

## 4. Plan per property

| id | model | proof method |
|----|-------|--------------|
| C01-C03 | `box3d` record, `collide`, `empty`, `count`, `r2c`, `find_world` | interval arithmetic, counting by explicit enumeration |
| C04 | `world_complete`; the asserts of `plan_operations` in a debug build (`PlanChecks.v`) | counting/pigeonhole over index lists: disjoint + inside + equal count = tiling; the asserts hold exactly for `valid_io` at the origin (`PlanChecksProofs.v`) |
| C05 | `split_world` | per-direction partition lemma, product of partitions |
| C06, C07 | `get_factors`, `make_procgrid`, `make_procgrid2d` | list induction, extremality of fold |
| C08 | `maximize_overlap` incl. the `int` accumulator | permutation invariant; refutation for overlaps >= 2^31 |
| C09 | `make_pencils`, `make_slabs` | C05+C07+C08 |
| C10 | `proc_setup_min_surface` | refutation by computation, soundness part as `_partial`; the loops as one search through a list of grids, which gives the exact condition (`MinSurfaceExact.v`) |
| C11-C14 | `plan_operations` and helpers, outcome monad | case analysis over plan branches with a shared stage invariant |
| C15 | same | refutation + partial |
| C16, C17 | `direct_packer`, `transpose_packer`, overlap maps | index-pair lists, mixed radix arithmetic |
| C18, C19, C21 | whole-system semantics of the collective reshapes, as a function and as a transition system (`Coll.v`) | offsets of message blocks, tiling gives unique owner |
| C20 | transition system for point-to-point | invariants + deadlock freedom + confluence |
| C22 | `a2a_group`, `get_max_size`, `iotripple` | graph reachability |
| C23 | bounds of all accesses | arithmetic |
| C24-C28 | `compute_transform` (three overloads) as per-rank straight-line programs over named buffers, collective semantics | simulation: distributed array represents a global array |
| C29 | stock r2c executor, Hermitian symmetry | ring sums |
| C30 | `get_scale_factor`, `apply_scale` | field algebra |
| C31 | stock executor index maps | mixed radix bijection |
| C32, C33 | stock call tree and algorithms, Rader's algorithm with primitive roots | DFT splitting identities over the complex numbers, induction on the call tree; refutation for all lengths divisible by the square of their largest prime factor (1217 or more) |
| C34 | r2r pre/post processing on CPU and GPU, alignment of the workspace for cuFFT | DFT of extended signal = cosine/sine sums |
| C35 | FFTW plan parameters | index maps; refutation for order != (0,1,2) |
| C36 | overload table with checks | case analysis; refutation for two overloads |
| C37 | grid-stride kernels under arbitrary thread schedule (`Gpu.v`, `GpuR2r.v`, `GpuSycl.v`) | writes of the same entry agree, coverage; refutations for index overflow |
| C38 | `set_options`, `plan_operations` | case analysis; refutation for `use_subcomm` |
| C39 | C interface with a heap of plans and objects (`CApi.v`), documented behaviour in `SpecCApi.v` | refinement for all programs by an invariant; refutations |
| C40 | staged variants of the reshapes: host vectors next to the workspace (`Reshape.v`, `P2p.v`, parameter `staged`) | the invariants of C18-C20 over the memory given to MPI; agreement through the common specification |
| C41 | the int/index arithmetic of constructing and applying a reshape (`IntReshape.v`): construction again with an error for each overflow, apply as the list of all signed values it computes | bounds of the overlaps by the local boxes; equality with the unlimited model |
| C42 | vector types with the intrinsics they use, entry by entry (`Simd.v`); the FFT over any kind of number (`SimdFft.v`); plans with groups and remainder | the numbers in a position form a homomorphism to the complex numbers; loads and stores by induction |
| C43 | the built-in FFT over numbers with rounded operations (`SpecRounding.v`), its executors for any 1-D FFT (`FftExec.v`), the scaling with rounded operations (`RoundedScale.v`) | the same FFT run on exact and computed values in lockstep and, abstractly, on counters (`Counting.v`): the errors are those of the counted roundings; composed over lines, directions and calls; for the sine and cosine transforms (`RoundingR2r.v`, scaling in `RoundedScaleR2r.v`) the processing of lines only copies and changes signs, so that their errors are those of the FFT of the lengthened lines |
| C44 | programs made of calls and operations on the local arrays; `box2d` | sums over the points of a box and permutations of them; convolution, shift and Parseval's theorem for the 3-D DFT, transported to local arrays through C24, C25, C29 |
| C45 | `device_vector`, the memory operations of CUDA, ROCm and oneAPI with failures, loads and unloads, programs over a heap of blocks (`DeviceVector.v`); lists instead of containers in `SpecOwner.v` | simulation with an invariant that pairs blocks and owners; refutations for oneAPI |
| C46 | queues of kernels next to the transition systems of the reshapes (`Async.v`, `Coll.v`, `Place.v`), with kernels pending at the start; MPI collectives that return early | invariant: draining the queue of a rank gives the state of the synchronous system; kernels and messages touch disjoint parts; every state after the return extends to an outcome (`FlushProofs.v`) |
| C47 | programs of several calls as one run of one transition system in which reshapes by collectives and by messages, of arrays on the host and on the GPU, follow each other (`Mixed.v`), with the work between the calls (`Session.v`); the loops of the benchmarks (`Programs.v`) | the invariant of the messages, in which reshapes by collectives send nothing, and of the collectives together (`MixedProofs.v`); a certificate of each call says for each rank alone how its memory must be at its reshapes; certificates are put one after the other (`SessionProofs.v`) |
| C48 | python/heffte.py as functions on the heap of the C interface (`Python.v`), `SpecPython.v` says which arrays suit an object | reduction to C39: every statement is compared with the ideal one under an invariant; folds for proc_setup |
| C49 | boxes as bytes, `MPI_Allgather`, the loop of `gather_boxes` and the constructors up to the setup of C24 (`Gather.v`) | writing and reading integers are inverse; block r of the gathered bytes belongs to rank r |
| C50 | variables with their pointers and flags, the heap with addresses, SWIG's assignment, release and null check, constructors from integers, generic procedures as a table (`Fortran.v`); `SpecFortran.v` has the ideal program, in which variables own or name objects | simulation with an invariant: owners and objects are in bijection, names point to their objects or nowhere; case analysis for constructors and procedures |
| C51 | int/index arithmetic of the executors of the built-in and sine/cosine backends, of setup(), of forward/backward and of MAGMA's scaling (`IntTransform.v`): objects again with an error for each overflow, runs as the list of all signed values they compute | bounds by the boxes of the plan; equality with the unlimited model |
| C52 | `heffte_trace.h` (blocks with `add_trace`, clock, log, files) and the blocks of `compute_transform` and of the reshapes (`Trace.v`) | induction over the structure of the code with an invariant of the log; counts of names by cases over the active reshapes; the messages of a rank from the overlaps (`TraceProofs.v`) |
| C53 | the addresses of the arrays in the calls of cuFFT for real data (`Align.v`): `cufft_executor_r2c`, `align::pntr`, `compute_transform` with batches | parity of addresses; both directions of an equivalence (`AlignProofs.v`). For sine and cosine transforms: `library_takes` in `GpuR2r.v`, part of C34 |
| C54 | `compute_grids` (in `Plan.v`; the conversion of the counts to int is left out, they are at most the number of ranks) | induction over the boxes: the list of ranges has no duplicates and has exactly the ranges that occur; uniqueness of such a list (`GridsProofs.v`); the distributions of `make_pencils` and `make_slabs` form grids (`GridsPencils.v`); walk through the pencil and the slab plan, every step keeps the grid form (`GridsPlan.v`) |

## 5. Trusted base

* The kernel of Coq 8.16.1 (and `coqchk`). `vm_compute` is used in examples and refutations, it is part of
  the kernel.
* Axioms, all from the standard library. `Print Assumptions` stands below each theorem in `Prop*.v`:
  * PropGeometry, PropMinSurface, PropPlan, PropPlanChecks, PropGrids, C14_natural_order in PropVendor, PropPack, PropInt, PropIntTransform except the C51_r2r theorems, PropOwner, PropCApi, PropPython except C48_proc_setup, in PropReshape C18_alltoallv_function, C19_alltoall_function, C21_local_reshape,
    C22_* and C23_workspace_of_list, in PropGpu the theorems that do not mention real numbers, in PropStock C31_lines_cover, C31_half_lines_cover,
    C31_groups_cover, C32_small_lengths, C33_call_tree, in PropTransform C29_first_rank_refuted, C24_forward_undefined,
    C25_backward_undefined, C25_backward_real_undefined, C29_backward_undefined, in PropAsync C46_complete_on_return_refuted, C49_gather,
    PropFortran except C50_constructed and C50_r2c_constructed, PropAlign except C53_batches_refuted, PropTrace except C52_log, C52_block, C52_transparent, C52_time, C52_sum_refuted, C52_same_events:
    closed under the global context. Also C47_own_settings in PropSession.
  * The other theorems of PropReshape, in PropStaged C40_reshape_same and C40_each_place_partial, the other theorems of PropAsync except
    C46_forward_in_place, in PropSession C47_calls, and in PropTransform the theorems for any scalars (C24_objects_exist, C24_forward_any_transform_partial, C26, C27, C28
    except C27_batch_r2c_refuted), the other theorems of PropGather, C50_constructed, C50_r2c_constructed, C52_same_events: `FunctionalExtensionality.functional_extensionality_dep` (arrays are functions; two orders of the same kernels
    leave equal arrays).
  * All theorems about the DFT and scaling use the real numbers of the standard library and list
    `ClassicalDedekindReals.sig_forall_dec`, most of them also `ClassicalDedekindReals.sig_not_dec` and
    `FunctionalExtensionality.functional_extensionality_dep`.
  * PropRounding, PropRoundingR2r and C53_batches_refuted: the same real-number axioms. The example of double precision uses Flocq (definitions and lemmas; its only
    axioms are those above). No other library is used: not mathcomp, not Coquelicot.
* The correspondence between the C++ text and the Gallina functions, checked only by reading; each definition
  cites its lines.
* The models of things outside of heFFTe:
  * MPI (`Mpi.v`, `P2p.v`): collectives deliver blocks as in the standard, point-to-point messages are matched by
    source and tag in order. A collective call (`Coll.v`) reads the send buffer at any time between its start and its return and
    returns when all members have called, or earlier on a rank when the members that have not called send it nothing.
    `MPI_Allgather` (`Gather.v`) puts the bytes of rank r into block r on every rank.
  * Integers in memory (`Gather.v`): two's complement, 4 bytes for int and 8 for long long, the same byte order on all ranks; members of a
    struct follow each other without gaps, padding is at its end and holds anything.
  * External FFT libraries: `Vendor.v` says what a batched strided transform of a library does (manuals of FFTW, MKL,
    oneMKL, cuFFT, rocFFT), `Fftw.v` and `Vendors.v` translate the arguments that heFFTe passes into such batches.
    `factory_ok`, `factory_real_ok`, `factory_r2c_ok` in `SpecTransform.v` state what the calls need from executors;
    they are proved for the executors of all backends (C31_executors, C31_library_executors, C34_executors,
    C34_gpu_executors_partial, C34_fftw_ready). For the stock backend the FFT itself is modelled. What rocFFT needs as work buffer, and which
    entries an aligned cuFFT workspace skips, is arbitrary. For real data cuFFT takes arrays at multiples of the size of a complex
    number only (`library_takes` in `GpuR2r.v`, `SpecAlign.v`).
  * `std::sort`, `std::unordered_map`, `std::vector` operations by their specification.
  * AVX and AVX512 (`Simd.v`): the meaning of each intrinsic (add, mul, permute, blend, dp, hadd, fmaddsub, ...) from Intel's manual,
    on real numbers; that an operation acts on each complex number separately is C42.
  * Fortran (`Fortran.v`): a generic procedure is resolved by number, type and kind of the arguments; the variables of a program start with
    their initial values; `operator new` returns an address where no object is. SWIG's generated text is modelled for FFTW; the files of the other backends
    were compared with it by a script and are equal up to the name of the backend.
  * GPU threads (`Gpu.v`): loads and stores of scalars are atomic steps of an arbitrary interleaving; a launch with no
    block or more than 2^31 - 1 blocks fails; consecutive kernels on one stream do not overlap.
  * GPU streams (`Async.v`, `Coll.v`): the kernels of a stream run one after the other in the order of their launch, at any later time;
    `synchronize_device` and copies to the host return when the queue is empty. Each kernel is one step there; the launches of one
    loop of a collective reshape, and the work of a rank between two reshapes, are one kernel.
  * `gpu::transfer::load` from a `std::vector` on the host takes the data when it is called and writes it in the order of the stream,
    `unload` is complete when it returns (`cudaMemcpyAsync`/`hipMemcpyAsync` with pageable memory; oneAPI waits).

Modelled: heffte_geometry.h (boxes, grids, splits, pencils, slabs, overlap), heffte_plan_logic.{h,cpp},
heffte_pack3d.h and the CPU packers, heffte_reshape3d.{h,cpp} (all four algorithms, with and without copies through host memory), heffte_compute_transform.cpp,
the setup and the calls of heffte_fft3d.h and heffte_fft3d_r2c.h (pointers and vectors), scaling, heffte_backend_stock.h with stock_fft/* (scalar and vector types),
heffte_r2r_executor.h (CPU), the executors of heffte_backend_fftw.h, heffte_backend_cuda.h, heffte_backend_mkl.h,
heffte_backend_oneapi.h and heffte_backend_rocm.h (parameters of the plans, blocks, workspaces, copies; not the data
transfer, streams or the choice between float and double), the kernels of heffte_backend_cuda.cu,
heffte_backend_rocm.hip.cpp and heffte_backend_oneapi.cpp with their launches, heffte_c.cpp, heffte_backend_vector.h and
the transfers of heffte_backend_data_transfer.h that create and read containers, python/heffte.py, fortran/generated/*.

Not modelled: see section 3.

## 6. Findings

Places where the faithful model refutes a property; the theorem is named.

1. `maximize_overlap` sums overlaps in an `int`: wrong assignment for overlaps of 2^31 indexes
   (C08_assignment_refuted_beyond_int).
2. `proc_setup_min_surface` can return a grid that does not fit although one that fits exists, and one with more
   surface than another (C10_min_surface_refuted, C10_min_surface_not_minimal_refuted).
3. With `use_reorder` an r2c plan may have lines that are not contiguous, since `r2c()` of an empty box loses its
   order and rank 0 determines the order of all (C14_contiguous_refuted); the data ends up in the wrong place
   (C29_first_rank_refuted). It cannot happen when all boxes have the natural order and the first stage keeps it, as with
   the real transform in direction 0 (`first_rank_ok`, C14_contiguous_partial, C29_forward_partial).
4. `use_num_subranks` is not respected when the user's boxes already are pencils (C15_subranks_refuted). Only ranks that hold data in the caller's own boxes can be affected (C15_no_new_ranks).
5. `use_subcomm` sets the number of subranks to 1 (C38_use_subcomm_refuted).
6. `forward()`/`backward()` out of place dereference a null executor on ranks without data in the first
   distribution (C24_forward_refuted, C25_backward_refuted), with default options and five ranks. The exact condition is
   known: a rank without data before and after the first reshape, on which that reshape has no work, must have work in
   exactly one of the other three. It is what C24_forward_partial and C25_roundtrip_partial assume, and without it every
   execution is undefined (C24_forward_undefined, C25_backward_undefined; into real arrays C25_backward_real_undefined and
   C29_backward_undefined, with no exception for ranks that have work later).
7. `backward()` out of place with a 3-D executor and different input and output orders uses memory that was never
   written (C25_backward_uninitialised_refuted): cuFFT backend with default options on a single rank.
8. Batched `fft3d_r2c::forward` without reordering uses the number of real entries as the distance between complex
   ones (C27_batch_r2c_refuted). The exact condition is known: it happens when some rank that holds data after the
   first reshape has no work in the other three and at least three indexes in the reduced direction
   (forward_allowed_r2c). Then every execution leaves the output array, with every algorithm, on the host and on a GPU
   (C27_batch_r2c_undefined: if the array has just the entries of the batch).
9. `fft3d_r2c::backward` reads past the end of the user's array on ranks without data (C29_backward_refuted).
10. The stock backend computes a wrong FFT for lengths that are divisible by the square of their largest prime factor,
    if that is above 1213, for example for all q^2 and 10 q^2: `factor()` stops at k*k < f, does not find the factor,
    and Rader's algorithm is applied to the composite length q^2 (C32_largest_square_refuted). Other lengths with such
    a square, for example 1217^2 * 1223, are right: the condition is exact (C32_exact_partial). For primes above
    2642245 the exponent that Rader's algorithm passes to omega::get exceeds 64 bits.
11. The unscaled `backward()` of the sine and cosine backends other than FFTW is eight times the transform that the
    documentation names (C34_backward_eightfold, C34_documented_backward_refuted): results depend on the backend.
12. A type I cosine transform with a direction of length 1 dereferences a null pointer (C34_cos1_length1_refuted); its
    scale factor is 1/0.
13. The 2-D and 3-D executors of all external libraries ignore the order of the box (C35_order_refuted). They are used
    when directions are merged, that is without reordering, which is the default for cuFFT, MKL and oneMKL: `forward()`
    then gives a wrong result for boxes in any but the natural order, even on a single rank (C35_call_refuted).
14. The complex-to-real calls with vectors, `fft3d::backward_real(vector)` and `fft3d_r2c::backward(vector)`, do not check
    the size of the input and read beyond its end (C36_backward_real_refuted, C36_r2c_backward_refuted).
15. The packing kernels of CUDA and ROCm multiply indices of type `int` by the number of scalars per entry: for complex
    boxes with more than 2^30 entries they overflow although the box is within the limits of the index type
    (C37_large_pack_refuted, 1280^3). oneAPI uses `size_t` throughout.
16. `thread_grid_1d` takes an `int`: scaling of 2^30 or more complex entries fails at launch, also with `long long`
    as index type (C37_large_scale_refuted).
17. In `cos_pre_forward` and `sin_pre_forward` on a GPU all threads write one entry (with the same value,
    C37_same_entry_refuted); the result is right for every interleaving (C37_lines_before_partial).
18. C interface: `heffte_set_default_options` leaves `use_gpu_aware` unset (C39_default_options_refuted), so a plan
    created with NULL for the options depends on an indeterminate value (C39_null_options_refuted); after a failed
    creation the caller's plan points to deleted memory, `plan = nullptr` only changes the argument
    (C39_dead_plan_refuted); an invalid algorithm and exceptions other than `std::runtime_error` leave the C function
    instead of being reported (C39_algorithm_refuted, C39_exception_refuted); sizes beyond `int` are truncated
    (C39_sizes_refuted); a complex transform with a real-to-complex plan is undefined (C39_complex_call_undefined).
19. Sizes: the padded all-to-all keeps its position in an `int`, which overflows when the padded messages have
    2^31 entries although the arrays of each rank have about 2^29 (C41_padded_refuted); its `size_workspace` computes
    `2 * num_entries` as an `int` (C41_workspace_padded_refuted); with `index = int` the sum `input_size + output_size`
    overflows for arrays that fit (C41_workspace_int_refuted); the constructors of the reshapes take the sizes as `int`,
    so `index = long long` does not allow local arrays of 2^31 entries (C41_large_box_refuted).
20. Assignment of a `device_vector` copies the stream instead of exchanging it, so the old memory is freed through the
    stream of the other vector; with oneAPI and streams of two contexts this is undefined (C45_two_contexts_refuted).
21. With oneAPI a failed allocation is not noticed (`sycl::malloc_device` returns null): the vector has its size but no
    memory (C45_failed_allocation_refuted). CUDA and ROCm throw.
22. Nothing waits for the stream at the end of `apply()`, `forward()` and `backward()`: on a GPU the output may not be there when they
    return (C46_complete_on_return_refuted). The documentation does not say that the caller has to wait for the stream.
23. The benchmark `convolution.cpp`, described as FFT^{-1}(FFT(X) .* FFT(Y)), scales the forward transform by 1/N and squares the result: it
    computes the convolution divided by N (C47_convolution_benchmark).
24. Python: `plan_options` has three fields, `heffte_plan_options` of C four; C reads behind the structure. The field
    `use_alltoall = 1` selects `p2p_plined` (C48_options_refuted).
25. Python: `backward()` compares the sizes of its arrays as `forward()` does. Where the boxes of a rank differ in size it
    refuses all right calls and accepts an output array that is too small (C48_backward_refuted, C48_backward_overrun_refuted);
    `backward_buffered()` does not check the size of the workspace (C48_backward_workspace_refuted).
26. Python: `fft3d_r2c()` sets `use_r2c` to False, so complex arrays are not refused and the C function uses the object as one of
    another class (C48_r2c_complex_refuted). Strided arrays and arrays in the wrong memory are accepted (C48_arrays_refuted).
27. Python: after a failed creation the plan object is collected, and `__del__` destroys a plan that does not exist
    (C48_failed_creation_refuted).
28. Python: `split_world()` divides with `/`; unless the grid divides the world, boxes reach beyond it (C48_split_world_refuted).
    Neither it nor `proc_setup()` can be called with `heffte.box3d`, which has no `size` and no `count()`; `print_what()` prints an undefined name.
29. Fortran: after `x = y`, where x already had an object and y owns one, both own it; releasing both deletes it twice
    (C50_assignment_refuted). Assigning an unassigned variable to another name deletes the object of its owner (C50_null_refuted). A new object
    assigned to another name of a deleted one is lost if it has the same address (C50_address_refuted).
30. Sizes in the transforms: a copy between input, output and workspace has `batch_size * box_size()` entries, computed as `int`, so a batch
    of 16 transforms of 512^3 entries overflows although `index = long long` (C51_batch_refuted); `total_size` of the executors is an `int`
    (C51_large_box_refuted); the size of the workspace of the sine and cosine transforms overflows from 2^28 entries (C51_r2r_refuted);
    MAGMA's scaling takes the number of entries as an `int` and doubles it for complex data: 2^30 entries overflow, and a batch of 32
    transforms of 512^3 entries is not scaled at all (C51_magma_refuted).
31. Tracing: when messages are copied through host memory and `p2p_plined` is used, "isend N for R" gives the size for a single transform
    (heffte_reshape3d.cpp:568), while the receiver logs the size of the whole batch (C52_isend_size_refuted).
32. Tracing: "unpacking from N" gives the number of the request (line 704), not the rank as in line 614 (C52_unpacking_refuted).
33. Tracing: "reshape/copy" contains the three one-dimensional transforms; two single transforms of a transform from complex to
    real are called "fft-1d x3" (C52_names_refuted); the durations cannot be summed up (C52_sum_refuted). The files are called
    root_rank.log, the documentation says .txt (C52_file_name_refuted).
34. `fft3d_r2c` on cuFFT with a batch: entry j of the batch begins after j * size_inbox() real numbers. If that is odd, cufftExecR2C
    and cufftExecC2R get an array that is not aligned to complex numbers, which they do not take (the comment in
    heffte_backend_cuda.h:667, where blocks are copied for this reason). C53_batches_partial gives the exact condition, C53_batches_refuted
    two cubes of 27 entries; C53_single_calls: calls without a batch are safe.
35. `compute_grids` leaves out the range 0..-1 only. Slabs for more ranks than planes have other ranges without indexes, and one of
    them is counted: two planes for four ranks are reported as 1 x 1 x 3 boxes (C54_grids_refuted).

Observed while reading, without a theorem: the Fortran constructors do not translate exceptions into `ierr`; fortran/README.md says
three booleans where the second option is the number of the algorithm, and `size_output` for `size_outbox`; `device_transfer::copy` uses `source.stream()` and a `device_vector` with the device
as its second argument, which do not exist, so it cannot be instantiated; the constructor of a 2-D `box3d` with an order
passes `std::array<index, 3>` for `std::array<int, 3>` and compiles for `index = int` only; `transfer::capture` always uses the default stream; `pre_forward` of the cosine and sine executors writes one entry past
the end of the extended line, into the next line or the gap of one entry behind the last one; `world_complete` is only called in an assert, so a release build accepts
incomplete boxes; `getNumNodes(0)` does not terminate (not reachable from a non-empty box); `get_factors(1)` lists
the grid {1,1} twice (harmless); the rocFFT executors make plans before
`rocfft_setup` is called (the 1-D constructor calls it afterwards, the others not at all); the CUDA wrapper accepts a device number equal to the number of devices; the
point-to-point reshape passes `MPI_STATUS_IGNORE` where `MPI_STATUSES_IGNORE` is required.
