{"id": "C01", "title": "Box intersection, emptiness and counting mean what they say", "statement": "For any two boxes, the box returned by collide() contains exactly the index triples that belong to both boxes and keeps the order of the left box when neither is empty; empty() is true exactly when no triple belongs to the box; count() equals the number of triples in the box.", "quantifier": "all pairs of boxes with arbitrary integer corners (inverted corners included) and arbitrary orders", "why_tests_cant": "there are infinitely many box pairs and the degenerate ones (touching, inverted, nested) are what breaks; every later stage relies on these three", "anchors": ["include/heffte_geometry.h: box3d::collide, box3d::empty, box3d::count"]}
{"id": "C02", "title": "The r2c box holds exactly the non-redundant half spectrum", "statement": "For a non-empty box, r2c(d) contains exactly the triples of the box whose d-th index is at most low+size/2, all other directions and the order unchanged; an empty box stays empty.", "quantifier": "all boxes, all three directions, odd and even sizes, size one", "why_tests_cant": "odd/even/one-element sizes in each direction combined with any offset cannot be enumerated", "anchors": ["include/heffte_geometry.h: box3d::r2c"]}
{"id": "C03", "title": "The world box is the least box that encloses all corners", "statement": "find_world returns the smallest box containing the corners of every given box: it contains every index triple of every box, and any box with the same corner-containment property contains it.", "quantifier": "all non-empty lists of boxes", "why_tests_cant": "quantifies over unbounded lists of boxes", "anchors": ["include/heffte_geometry.h: find_world"]}
{"id": "C04", "title": "The geometry sanity check accepts exactly the tilings", "statement": "For a non-empty list of boxes and its world, the check succeeds if and only if the world starts at zero in all three directions and every index triple of the world belongs to exactly one of the boxes.", "quantifier": "all lists of boxes of any length", "why_tests_cant": "a counting check standing in for a covering check must be right for every arrangement of boxes; the source itself says the check is 'not very rigorous'", "anchors": ["include/heffte_geometry.h: world_complete, find_world"]}
{"id": "C05", "title": "Splitting the world tiles it evenly", "statement": "split_world returns proc_grid[0]*proc_grid[1]*proc_grid[2] boxes carrying the order of the world such that every index of the world is in exactly one box; in each direction the box extents differ by at most one; with a sub-rank map, exactly the mapped ranks get those boxes and the others get an empty box.", "quantifier": "all worlds (any offset, any size) and all positive processor grids, including more processes than indexes", "why_tests_cant": "integer division/remainder boundaries for every size and every grid", "anchors": ["include/heffte_geometry.h: split_world"]}
{"id": "C06", "title": "Two-dimensional process grids are complete and optimal", "statement": "The list of factor pairs contains exactly the pairs of positive numbers whose product is n, and the chosen 2-d grid multiplies to n and has minimal area among all such pairs.", "quantifier": "all positive process counts", "why_tests_cant": "all n", "anchors": ["include/heffte_geometry.h: get_factors, get_area, make_procgrid"]}
{"id": "C07", "title": "Constrained process grids either fit the world or the plan is rejected", "statement": "make_procgrid2d returns a 3-d grid that has one process in the pencil direction, multiplies to the number of processes and has no more processes than indexes in any direction; it throws exactly when no factorization satisfies this.", "quantifier": "all worlds, all directions, all candidate grids", "why_tests_cant": "unbounded integer search space; failure only in corner cases", "anchors": ["include/heffte_geometry.h: make_procgrid2d"]}
{"id": "C08", "title": "Assigning boxes to ranks loses nothing", "statement": "The overlap-maximising assignment of new boxes to ranks is a permutation of the new boxes, stamped with the requested order; ranks excluded by the sub-rank map keep their (empty) box. Counting overlaps must not change this.", "quantifier": "all lists of boxes, all old distributions, all orders and sub-rank maps", "why_tests_cant": "greedy selection with arbitrary overlaps; the failing inputs need more than 2^31 indexes in one overlap", "anchors": ["include/heffte_geometry.h: maximize_overlap"]}
{"id": "C09", "title": "Pencil and slab redistributions tile the world with the requested shape", "statement": "make_pencils / make_slabs return one box per rank; the non-empty boxes tile the world, span the whole world in the requested direction(s) and carry the requested order.", "quantifier": "all worlds, directions, process counts, source distributions, orders and sub-rank maps", "why_tests_cant": "all geometries", "anchors": ["include/heffte_geometry.h: make_pencils, make_slabs, split_world, maximize_overlap"]}
{"id": "C10", "title": "The minimum-surface grid uses all processes whenever possible and is minimal", "statement": "proc_setup_min_surface returns a grid whose product is the number of processes and that fits the world whenever such a grid exists, and no fitting grid has a smaller surface.", "quantifier": "all world sizes and process counts", "why_tests_cant": "a wrong divisor test shows only for special combinations of size and process count", "anchors": ["include/heffte_geometry.h: proc_setup_min_surface"]}
{"id": "C11", "title": "Plans transform each direction exactly once, r2c direction first", "statement": "The three transform directions of a plan are a permutation of 0,1,2; for a real-to-complex plan the first is the reduced direction.", "quantifier": "all valid input/output geometries, all options, all numbers of ranks, all r2c directions", "why_tests_cant": "the plan logic is a deep case distinction over arbitrary geometries", "anchors": ["src/heffte_plan_logic.cpp: plan_operations, plan_pencil_reshapes, plan_slab_reshapes, get_any_valid"]}
{"id": "C12", "title": "Every stage of a plan is a tiling and consecutive stages agree", "statement": "The first stage starts at the user's input boxes, the last ends at the user's output boxes, each stage starts where the previous transform ended (after the r2c shrink), has one box per rank, and its boxes tile the input world before the first transform and the output world after it.", "quantifier": "all valid geometries, options and rank counts", "why_tests_cant": "all geometries; an uncovered index is silently wrong data", "anchors": ["src/heffte_plan_logic.cpp: plan_operations", "include/heffte_plan_logic.h: logic_plan3d"]}
{"id": "C13", "title": "Whenever a 1-D transform runs, its rank holds complete lines", "statement": "At each of the three transform stages every non-empty local box spans the whole world in the direction being transformed.", "quantifier": "all valid geometries, options and rank counts", "why_tests_cant": "all geometries", "anchors": ["src/heffte_plan_logic.cpp: plan_pencil_reshapes, plan_slab_reshapes, next_pencils_shape, next_pencils_shape0"]}
{"id": "C14", "title": "With reordering on, transforms are contiguous", "statement": "With use_reorder the local boxes at every transform stage have the transformed direction as their fastest index, all ranks use the same order at each stage and every order is a permutation.", "quantifier": "all valid geometries and rank counts", "why_tests_cant": "all geometries and orders", "anchors": ["src/heffte_plan_logic.cpp: new_order, reorder_slabs, next_pencils_shape", "include/heffte_plan_logic.h: set_options"]}
{"id": "C15", "title": "Sub-rank limits are respected", "statement": "With use_num_subranks(k) (k smaller than the number of ranks) only ranks below k hold data while transforms are computed.", "quantifier": "all geometries and all k", "why_tests_cant": "depends on the user geometry", "anchors": ["src/heffte_plan_logic.cpp: plan_operations", "include/heffte_geometry.h: rank_remap, make_pencils"]}
{"id": "C16", "title": "Packing and unpacking a sub-box is lossless and touches nothing else", "statement": "Packing a sub-box of an array and unpacking it into the same place of another array transfers exactly the entries of the sub-box, in any order of the box, and leaves all other entries unchanged; no access leaves the arrays.", "quantifier": "all boxes, sub-boxes, orders, array contents", "why_tests_cant": "all shapes and strides", "anchors": ["include/heffte_pack3d.h: direct_packer", "src/heffte_reshape3d.cpp: compute_overlap_map_direct_pack"]}
{"id": "C17", "title": "Transposing unpack is right for all six index orders", "statement": "Packing in the source order and unpacking with the transposing unpacker puts the value of every index triple where the destination order expects it, for each of the 36 pairs of orders and for every loop blocking factor.", "quantifier": "all boxes, sub-boxes, pairs of orders, contents", "why_tests_cant": "36 order pairs times unbounded sizes", "anchors": ["include/heffte_pack3d.h: transpose_packer", "src/heffte_reshape3d.cpp: compute_overlap_map_transpose_pack"]}
{"id": "C18", "title": "A reshape delivers every entry to its new owner (all-to-all-v)", "statement": "If each rank holds the entries of its input box of one global array, then after the alltoallv reshape each rank holds the entries of its output box of the same global array in the output order, for every batch entry; entries beyond the output box are untouched.", "quantifier": "all pairs of tilings of the same world, all orders, batch sizes, rank counts", "why_tests_cant": "global property of unboundedly many cooperating ranks", "anchors": ["src/heffte_reshape3d.cpp: reshape3d_alltoallv, make_reshape3d_alltoallv"]}
{"id": "C19", "title": "A reshape delivers every entry to its new owner (padded all-to-all)", "statement": "Same as C18 for the padded alltoall algorithm.", "quantifier": "all pairs of tilings of the same world, all orders, batch sizes, rank counts", "why_tests_cant": "as C18; additionally padding must never leak", "anchors": ["src/heffte_reshape3d.cpp: reshape3d_alltoall, make_reshape3d_alltoall, get_max_size, compute_overlap_map_all2all_pack"]}
{"id": "C20", "title": "A reshape delivers every entry under every message schedule (point-to-point)", "statement": "Same as C18 for p2p and p2p_plined, for every interleaving of the ranks and every order in which messages complete; the exchange never deadlocks even if sends block until the matching receive is posted.", "quantifier": "all tilings, orders, rank counts, all schedules", "why_tests_cant": "the number of schedules is factorial; a test sees one", "anchors": ["src/heffte_reshape3d.cpp: reshape3d_pointtopoint"]}
{"id": "C21", "title": "All reshape algorithms agree and a reshape is undone by its reverse", "statement": "alltoall, alltoallv, p2p, p2p_plined and the local transpose compute the same result for the same input; reshaping from A to B and then from B to A restores the data.", "quantifier": "all pairs of tilings, orders, contents", "why_tests_cant": "all geometries", "anchors": ["include/heffte_reshape3d.h: make_reshape3d", "src/heffte_reshape3d.cpp"]}
{"id": "C22", "title": "Ranks agree on communication groups and message sizes", "statement": "The group a rank computes for a collective contains it, every two ranks compute equal or disjoint groups, no message crosses groups, the amount every rank sends to another is what the other expects, and the padded block size is the same within a group.", "quantifier": "all pairs of box lists", "why_tests_cant": "each rank computes this alone from global data; disagreement is a hang on some geometry", "anchors": ["src/heffte_reshape3d.cpp: a2a_group, get_max_size"]}
{"id": "C23", "title": "Reshape buffers suffice", "statement": "No reshape reads or writes outside its arrays and outside batch*size_workspace() entries of its workspace.", "quantifier": "all tilings, batch sizes", "why_tests_cant": "all geometries", "anchors": ["src/heffte_reshape3d.cpp", "include/heffte_reshape3d.h: size_workspace"]}
{"id": "C24", "title": "forward() computes the global 3-D DFT for every layout", "statement": "With a backend whose 1-D transform is correct, if the ranks hold a global array in the input boxes, forward() leaves the 3-D discrete Fourier transform of that array in the output boxes, for every plan, reshape algorithm, option set and in/out order.", "quantifier": "all valid geometries, options, data", "why_tests_cant": "all data and geometries; end to end", "anchors": ["src/heffte_compute_transform.cpp: compute_transform", "include/heffte_fft3d.h: fft3d::setup, fft3d::forward"]}
{"id": "C25", "title": "backward() undoes forward() with full scaling", "statement": "backward with scale::full after forward with scale::none (or symmetric on both sides) restores the input exactly in exact arithmetic.", "quantifier": "all valid geometries, options, data", "why_tests_cant": "all data", "anchors": ["include/heffte_fft3d.h: fft3d::forward, fft3d::backward, get_scale_factor", "src/heffte_compute_transform.cpp"]}
{"id": "C26", "title": "In-place and out-of-place transforms agree and the input is preserved", "statement": "Out-of-place forward and backward give the same output as in-place ones, do not modify the input array, and never read workspace entries that were not written before.", "quantifier": "all combinations of active reshapes and executors, both directions, all data", "why_tests_cant": "64 control-flow patterns times all data; garbage in the workspace may look right", "anchors": ["src/heffte_compute_transform.cpp: compute_transform"]}
{"id": "C27", "title": "Batched transforms equal repeated single transforms", "statement": "forward/backward with batch_size b equals b single calls on consecutive sub-arrays, for c2c, r2c and c2r.", "quantifier": "all batch sizes, geometries, data", "why_tests_cant": "unbounded batch sizes and all control-flow patterns", "anchors": ["src/heffte_compute_transform.cpp: compute_transform"]}
{"id": "C28", "title": "size_workspace() suffices and its regions never collide", "statement": "All temporaries of forward/backward (communication buffer, temporary box, executor workspace, real staging area of r2c/c2r) lie inside batch*size_workspace() and regions live at the same time are disjoint.", "quantifier": "all plans, batch sizes", "why_tests_cant": "all geometries", "anchors": ["include/heffte_fft3d.h: fft3d::setup", "include/heffte_fft3d_r2c.h: fft3d_r2c::setup", "src/heffte_compute_transform.cpp", "include/heffte_utils.h: get_max_box_size"]}
{"id": "C29", "title": "Real-to-complex keeps the non-redundant half and complex-to-real restores it", "statement": "The r2c transform of real data equals the full DFT restricted to the reduced box, and the c2r transform of that half with full scaling restores the real data, odd and even lengths.", "quantifier": "all lengths, all real data", "why_tests_cant": "all lengths and data", "anchors": ["include/heffte_backend_stock.h: stock_fft_executor_r2c, plan_stock_fft", "include/heffte_fft3d_r2c.h"]}
{"id": "C30", "title": "Scaling options are consistent", "statement": "scale::full multiplies by 1/N, scale::symmetric by 1/sqrt(N) (twice = full), scale::none leaves data unchanged, only the local box entries are scaled; the r2r backends use the factor that makes backward(forward(x)) = x.", "quantifier": "all sizes and transform types", "why_tests_cant": "all sizes", "anchors": ["include/heffte_fft3d.h: get_scale_factor, apply_scale, setup", "include/heffte_pack3d.h: data_scaling"]}
{"id": "C31", "title": "The strided batches of a 1-D executor cover the box exactly", "statement": "For each direction and order the executor's (block, batch, stride, distance) addressing visits every entry of the box exactly once, each visited line varies only in the transformed direction in increasing order, and vectorised grouping covers each line once.", "quantifier": "all boxes, orders, directions, vector widths", "why_tests_cant": "all strides and remainders", "anchors": ["include/heffte_backend_stock.h: stock_fft_executor, plan_stock_fft", "include/heffte_geometry.h: fft1d_get_howmany, fft1d_get_stride"]}
{"id": "C32", "title": "The built-in FFT equals the DFT for every length", "statement": "For every length n >= 1 and any input, the stock FFT computes X[k] = sum x[j] exp(-+2 pi i jk/n) in exact arithmetic.", "quantifier": "all lengths, all data, both directions", "why_tests_cant": "all lengths; composite, power, prime paths", "anchors": ["include/stock_fft/heffte_stock_algos.h", "include/stock_fft/heffte_stock_tree.h: factor, fptrFactorHelper, init_fft_tree"]}
{"id": "C33", "title": "FFT call trees terminate and fit their allocation", "statement": "For every length n >= 1 building the call tree terminates and initialises exactly the number of nodes that were allocated; children sizes multiply to the parent size.", "quantifier": "all lengths", "why_tests_cant": "all lengths; a mismatch is memory corruption", "anchors": ["include/stock_fft/heffte_stock_tree.h: getNumNodes, init_fft_tree, numNodesFactorHelper, fptrFactorHelper"]}
{"id": "C34", "title": "Cosine and sine transforms equal their definitions and invert each other", "statement": "The cos/sin/cos1 transforms computed through extended FFTs equal the DCT-II/DCT-III, DST-II/DST-III and DCT-I sums, and backward after forward multiplies by the documented constant.", "quantifier": "all lengths, all real data", "why_tests_cant": "all lengths and data", "anchors": ["include/heffte_r2r_executor.h: cpu_cos_pre_pos_processor, cpu_sin_pre_pos_processor, cpu_cos1_pre_pos_processor, real2real_executor"]}
{"id": "C35", "title": "Multi-dimensional executors respect the index order", "statement": "The 2-D and 3-D executors transform the same lines as the corresponding sequence of 1-D executors for every order of the box.", "quantifier": "all boxes and orders, all direction pairs", "why_tests_cant": "all sizes and orders; equal sizes hide the bug", "anchors": ["include/heffte_backend_fftw.h: fftw_executor"]}
{"id": "C36", "title": "Vector overloads reject short inputs", "statement": "Every std::vector overload of forward/backward throws std::invalid_argument when the input is shorter than the local box.", "quantifier": "all overloads, all sizes", "why_tests_cant": "absence of a check is invisible to tests that pass the right size", "anchors": ["include/heffte_fft3d.h: forward, backward, backward_real", "include/heffte_fft3d_r2c.h: backward"]}
{"id": "C37", "title": "GPU packing kernels compute what the CPU packers compute", "statement": "For every launch configuration (grid and block size) and every thread interleaving the direct pack/unpack, transpose unpack, scaling and conversion kernels produce the result of the sequential CPU code.", "quantifier": "all launch configurations, shapes, data, thread schedules", "why_tests_cant": "schedules and sizes unbounded", "anchors": ["src/heffte_backend_cuda.cu: direct_packer, transpose_unpacker, simple_scal, real_complex_convert"]}
{"id": "C38", "title": "Options that the backend cannot honour are corrected, others kept", "statement": "A plan uses the requested algorithm, pencil/slab choice and reorder flag except that reordering is forced for backends whose executors need contiguous lines; use_subcomm restricts the transform to the given sub-communicator.", "quantifier": "all backends and option values", "why_tests_cant": "all combinations", "anchors": ["include/heffte_plan_logic.h: plan_options, set_options", "src/heffte_plan_logic.cpp: plan_operations"]}
{"id": "C39", "title": "The C interface reports errors and never hands out a dead plan", "statement": "heffte_plan_create returns a usable plan exactly when it returns success; option fields are all defined after heffte_set_default_options; invalid algorithms are reported as an error code.", "quantifier": "all backends, options and geometries", "why_tests_cant": "error paths", "anchors": ["src/heffte_c.cpp: heffte_set_default_options, heffte_plan_create, options_from_c_options"]}
{"id": "C40", "title": "The options and the place of the arrays do not change the result", "statement": "A reshape whose messages are copied through host memory (arrays on a GPU, use_gpu_aware = false) delivers the same data as one that sends from the GPU, never leaves its buffers and always ends; two transform objects for the same boxes with any two sets of options and any two DFT backends give the same results.", "quantifier": "all geometries, algorithms, batch sizes, option values, schedules of messages", "why_tests_cant": "needs GPUs, all option combinations and all interleavings of messages", "anchors": ["src/heffte_reshape3d.cpp: no_gpuaware_send_recv, reshape3d_alltoall::apply_base, reshape3d_alltoallv::apply_base", "include/heffte_reshape3d.h: cpu_send_buffer, cpu_recv_buffer", "include/heffte_plan_logic.h: plan_options::use_gpu_aware"]}
{"id": "C41", "title": "Local arrays below 2^31 entries never overflow, whatever the global size", "statement": "If every rank holds fewer than 2^31 entries before and after a reshape (for the whole batch), constructing and applying the reshape and asking for its workspace size involves no signed overflow and no truncation, for global sizes beyond 2^31 and for both index types.", "quantifier": "all geometries, numbers of ranks, batch sizes, algorithms, index types int and long long", "why_tests_cant": "needs gigabytes per rank and all geometries", "anchors": ["src/heffte_reshape3d.cpp: compute_overlap_map_direct_pack, compute_overlap_map_transpose_pack, compute_overlap_map_all2all_pack, a2a::get_max_size, apply_base", "include/heffte_reshape3d.h: iotripple, size_workspace, reshape3d_alltoall, reshape3d_transpose"]}
{"id": "C42", "title": "Vector instructions do not change the results", "statement": "With AVX or AVX512 every operation on a vector of complex numbers acts on each number as the complex operation, the built-in FFT of an array of vectors is the FFT of each of its positions, and the plans, whole groups and padded remainder, read and write exactly what separate transforms do: the backend computes the same transforms as without vector instructions (exact arithmetic).", "quantifier": "all six vector types, all operands, all lengths, numbers of transforms, strides and distances", "why_tests_cant": "all masks times all lane positions times all lengths and remainders; tests run on one instruction set", "anchors": ["include/stock_fft/heffte_stock_vec_types.h: pack, mm_complex_mul, mm_complex_fmadd, mm_complex_fmsub, mm_complex_sq_mod, mm_complex_conj, mm_complex_mul_i, mm_complex_mul_neg_i, mm_complex_div, mm_complex_load", "include/stock_fft/heffte_stock_complex.h: Complex", "include/heffte_backend_stock.h: copy_pad, pack_size, plan_stock_fft"]}
{"id": "C43", "title": "Rounding errors of the transforms are bounded by the lengths alone", "statement": "If every complex operation of the built-in FFT has relative error at most eps, as it has with eps = 3u in a floating-point format of unit roundoff u, for std::complex and for the vector types, then forward and backward transforms of data of modulus at most M differ from the DFT by at most ((1+eps)^K - 1) G M, where K and G depend on the lengths only: not on the data, the number of ranks, the distribution or the options; so do the real transforms of fft3d_r2c and, with lengths of the lines handed to the FFT, the sine and cosine transforms; scaling adds at most six roundings (eighteen for sine and cosine transforms); a forward and a backward transform give the data times the number of points, and with inverse scalings the data, with such an error.", "quantifier": "all arithmetics with relative errors, data, lengths the built-in FFT can handle, directions, distributions and options", "why_tests_cant": "rounding errors of all data and all lengths; tests compare a few arrays with a tolerance", "anchors": ["include/stock_fft/heffte_stock_algos.h: stock_fft algorithms", "include/stock_fft/heffte_stock_vec_types.h: mm_complex_mul, mm_complex_fmadd", "include/heffte_backend_stock.h: stock_fft_executor", "include/heffte_fft3d.h: scale_factor, get_scale_factor", "include/heffte_r2r_executor.h: real2real_executor"]}
{"id": "C44", "title": "Convolutions, shifts, linear combinations, energy and two-dimensional transforms", "statement": "Programs that combine calls with operations on the local arrays get what Fourier analysis promises: transforms of entrywise linear combinations are the combinations of the results; shifted data gives phases; two forward transforms, an entrywise product and a backward transform with full scaling give the periodic convolution, also for real data with fft3d_r2c; with symmetric scaling the sum of squared moduli over all ranks is preserved; two-dimensional boxes give the 2-D DFT.", "quantifier": "all geometries, distributions, orders, options, batch sizes, data, coefficients and shifts", "why_tests_cant": "sums over all data and all distributions; tests compare a few arrays", "anchors": ["include/heffte_fft3d.h: fft3d::forward, fft3d::backward, fft2d", "include/heffte_fft3d_r2c.h: fft3d_r2c::forward, fft3d_r2c::backward", "include/heffte_geometry.h: box2d, box3d"]}
{"id": "C45", "title": "Containers of device memory behave as lists and never leak", "statement": "A program that creates, copies, moves, assigns, captures, releases, reads, writes and destroys gpu::device_vector containers, and loads and unloads them, sees the values it would see if the containers were lists; copies are independent; a statement that throws changes nothing; every block of memory in use has exactly one owner, no block is freed twice, and none is in use after all owners are gone, also when allocations and copies fail.", "quantifier": "all programs, sizes, values, streams and failures of the memory operations", "why_tests_cant": "all interleavings of operations and failures; leaks and double frees do not change results", "anchors": ["include/heffte_backend_vector.h: device_vector", "include/heffte_backend_data_transfer.h: device_transfer, gpu::transfer", "include/heffte_backend_cuda.h: data_manipulator", "include/heffte_backend_rocm.h: data_manipulator", "include/heffte_backend_oneapi.h: data_manipulator"]}
{"id": "C46", "title": "Kernels on a GPU run while the host and MPI go on", "statement": "With arrays on a GPU the packing, unpacking and transform kernels are only queued by the host. Whatever kernels the caller has queued before the call, and in whatever order the queued kernels, the hosts of all ranks and MPI act (an MPI collective may return on one rank before others have called it), no call fails or gets stuck, MPI never reads a buffer that is not packed yet, and a kernel queued on the same stream after the call, or the host after waiting for the stream, finds the right result. The call itself may return before the result is there.", "quantifier": "all interleavings of the hosts, the streams and MPI on any number of ranks, all four algorithms, all work queued before", "why_tests_cant": "needs interleavings of kernels and messages that tests cannot force", "anchors": ["src/heffte_reshape3d.cpp: apply_base", "include/heffte_backend_cuda.h: synchronize_device", "include/heffte_backend_rocm.h: synchronize_device", "include/heffte_backend_oneapi.h: synchronize_device"]}
{"id": "C47", "title": "Calls follow each other without barriers", "statement": "A program makes any number of calls of forward() and backward(), of one or several objects on a communicator, and each rank works on its own arrays in between. No barrier is needed between the calls: although some ranks may already be in a later call while others are still in an earlier one, the program does not get stuck and every rank finds in its arrays what the calls give when made one after the other. In particular any number of round trips in place restores the arrays, and a filter applied to the spectrum in every step gives after n steps what its n-th power gives at once.", "quantifier": "all sequences of calls that are each permitted, all local work between them, all interleavings of the ranks, the streams and MPI, any number of ranks and steps", "why_tests_cant": "needs message orders across calls that tests cannot force, and any number of steps", "anchors": ["src/heffte_fft3d.cpp", "include/heffte_fft3d.h: forward, backward, apply_scale", "src/heffte_reshape3d.cpp: apply_base", "benchmarks/speed3d.h: benchmark_fft", "benchmarks/convolution.cpp: benchmark_convolution"]}
{"id": "C48", "title": "The Python interface", "statement": "heffte.fft3d() and heffte.fft3d_r2c() give an object for the requested boxes and options, or raise heffte_input_error. forward() and backward(), also with a workspace, make exactly the requested transform if the arrays have the documented sizes and types and suit the backend, and raise heffte_input_error otherwise; no array or workspace that is too small reaches the library. Dropping an object frees its plan, also if its creation failed. split_world() covers the world with boxes that do not overlap, and proc_setup() finds a grid with the smallest surface.", "quantifier": "all sequences of creations, size queries, transforms and deletions, all arrays (size, type, layout, place), all builds, worlds and grids", "why_tests_cant": "the tests of the wrapper use one world on two ranks where both boxes of a rank are equal; wrong checks show only for other boxes, and reading beyond a structure shows only by chance", "anchors": ["python/heffte.py", "src/heffte_c.cpp", "include/heffte_c_defines.h: heffte_plan_options"]}
{"id": "C49", "title": "Constructors gather the boxes of all ranks", "statement": "Each rank constructs fft3d or fft3d_r2c with its own inbox and outbox only. Afterwards every rank has planned with exactly the boxes that all the ranks gave, in the order of the ranks, with corners, sizes and orders unchanged, for int and long long indexes; the objects of the ranks belong to one common plan, and inbox() and outbox() return what the rank gave.", "quantifier": "all numbers of ranks, all boxes whose corners and sizes are representable in the index type (also empty ones and ones with negative indexes), all contents of padding bytes, all options", "why_tests_cant": "the boxes travel as raw bytes, so a wrong count, stride or layout shows only for some index types, numbers of ranks and values; tests use small non-negative indexes and int", "anchors": ["include/heffte_geometry.h: mpi::gather_boxes", "include/heffte_fft3d.h: fft3d::fft3d", "include/heffte_fft3d_r2c.h: fft3d_r2c::fft3d_r2c"]}
{"id": "C50", "title": "The Fortran interface", "statement": "Programs that use heffte_fft3d_* and heffte_fft3d_r2c_* from Fortran construct, call and delete the C++ objects as their text says: a variable that was assigned the result of a constructor owns the object, x = y makes x another name of it, release() of the owner deletes it exactly once, no object is used after its deletion or lost, and a method of an unassigned variable does nothing and reports an error. The integers of the constructors become the boxes, orders, r2c direction and options they stand for, so that the objects of all ranks belong to one plan; forward and backward accept exactly the documented lists of arguments and make the C++ call with these arguments.", "quantifier": "all programs (sequences of constructions, assignments, releases and calls of any length over any number of variables), all addresses that operator new may return, all boxes, options and backends, all lists of argument types", "why_tests_cant": "ownership depends on the whole history of assignments and on the addresses of the allocator; the tests make one object and release it, and the generic procedures have 96 specific ones per backend of which tests call few", "anchors": ["fortran/generated/heffte_fftw.f90", "fortran/generated/heffte_fftwFORTRAN_wrap.cxx: SWIG_assign, DestructorPolicy, AssignmentPolicy", "fortran/README.md", "include/heffte_fft3d.h: fft3d::fft3d", "include/heffte_fft3d_r2c.h: fft3d_r2c::fft3d_r2c"]}
{"id": "C51", "title": "The integer arithmetic of transforms suffices for arrays below 2^31 entries", "statement": "If each rank holds at most 2^31 - 8 entries (for the whole batch) in every stage of a transform, then constructing fft3d and fft3d_r2c, constructing and running the one-dimensional transforms of the built-in backend, calling forward and backward and scaling involve no signed overflow and no truncation, for both index types: the objects and calls are those of unlimited arithmetic.", "quantifier": "all geometries, options, numbers of ranks, batch sizes, index types int and long long, vector widths, directions, in place or not, complex or real", "why_tests_cant": "needs gigabytes per rank and all geometries and batch sizes", "anchors": ["include/heffte_fft3d.h: fft3d::setup, apply_scale", "include/heffte_fft3d_r2c.h: setup", "include/heffte_common.h: executor_base", "src/heffte_compute_transform.cpp: compute_transform", "include/heffte_backend_stock.h: stock_fft_executor, stock_fft_executor_r2c", "include/heffte_r2r_executor.h: real2real_executor", "include/heffte_magma_helpers.h: scal"]}
{"id": "C52", "title": "Traces are faithful and tracing changes nothing", "statement": "With tracing enabled every call gives the same results, exceptions included, as without. The log of a rank has one event for each traced block, also when an exception leaves it, with the times at its beginning and end; events are disjoint or nested; the time given to any one name is at most the elapsed time. A call logs one event for each reshape the rank takes part in and the events of its one-dimensional transforms; the point-to-point messages in the logs of all ranks agree with each other and with the entries that have to move. init_tracing starts a new log, finalize_tracing writes it to a file of its own for each rank.", "quantifier": "all programs, clocks that do not go back, exceptions, boxes, numbers of ranks, algorithms, batch sizes, orders in which messages arrive", "why_tests_cant": "ranges over all geometries, all interleavings and all points at which an exception may be thrown; times differ in every run", "anchors": ["include/heffte_trace.h: add_trace, init_tracing, finalize_tracing", "src/heffte_compute_transform.cpp: compute_transform", "src/heffte_reshape3d.cpp: apply_base, no_gpuaware_send_recv"]}
{"id": "C53", "title": "cuFFT gets aligned arrays", "statement": "If the arrays of the user begin at multiples of the size of a complex number, as those from cudaMalloc() do, then forward() and backward() of fft3d_r2c on cuFFT call the library only with arrays that also do, since it does not take others for real data.", "quantifier": "all boxes, orders, plans, ranks, directions and batch sizes", "why_tests_cant": "depends on the parity of the sizes of the local boxes, the order of the data in them and the batch size; needs a GPU", "anchors": ["include/heffte_backend_cuda.h: cufft_executor_r2c::forward, cufft_executor_r2c::backward", "include/heffte_common.h: align::pntr", "src/heffte_compute_transform.cpp: compute_transform"]}
{"id": "C54", "title": "The reported process grids are those of the plan", "statement": "compute_grids() returns five entries for a plan: for the input boxes, the boxes after the first transform, those of the second and of the third transform, and the output boxes. Where the boxes form a grid, evenly spaced or not, given to the ranks in any way and with or without ranks that hold no indexes, the entry has the numbers of boxes of the grid in the three directions; in general it has the numbers of different index ranges.", "quantifier": "all plans, all grids and all assignments of the boxes to ranks", "why_tests_cant": "all geometries and rank counts; the benchmark only prints the result", "anchors": ["src/heffte_plan_logic.cpp: compute_grids", "include/heffte_plan_logic.h: compute_grids"]}
