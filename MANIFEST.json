{
 "claims": [
  {
   "property": "C01",
   "status": "proved",
   "theorems": [
    "C01_collide_is_intersection",
    "C01_collide_keeps_order",
    "C01_empty_iff_no_index",
    "C01_count_is_cardinality"
   ],
   "note": "All boxes over unbounded integers."
  },
  {
   "property": "C02",
   "status": "proved",
   "theorems": [
    "C02_r2c_half",
    "C02_r2c_keeps_order",
    "C02_r2c_empty"
   ],
   "note": "Non-empty boxes keep their order; an empty box stays empty (its order is reset, see DESIGN.md findings)."
  },
  {
   "property": "C03",
   "status": "proved",
   "theorems": [
    "C03_world_least_enclosing",
    "C03_world_exists"
   ],
   "note": "Least enclosing box."
  },
  {
   "property": "C04",
   "status": "proved",
   "theorems": [
    "C04_world_check_exact",
    "C04_plan_checks_exact"
   ],
   "note": "Exact characterisation; the library only calls the check from an assert. All asserts of plan_operations together hold exactly for the geometries that the theorems about plans assume, placed at the origin (C04_plan_checks_exact)."
  },
  {
   "property": "C05",
   "status": "proved",
   "theorems": [
    "C05_split_world_tiles",
    "C05_split_world_balanced",
    "C05_split_world_subranks"
   ],
   "note": "With and without a sub-rank map."
  },
  {
   "property": "C06",
   "status": "proved",
   "theorems": [
    "C06_factor_pairs_exact",
    "C06_procgrid_optimal"
   ],
   "note": ""
  },
  {
   "property": "C07",
   "status": "proved",
   "theorems": [
    "C07_procgrid2d_admissible",
    "C07_procgrid2d_throws_iff",
    "C07_procgrid2d_prefers_candidate"
   ],
   "note": ""
  },
  {
   "property": "C08",
   "status": "partial",
   "theorems": [
    "C08_assignment_is_permutation",
    "C08_assignment_greedy",
    "C08_assignment_refuted_beyond_int"
   ],
   "note": "Proved whenever every pairwise overlap is below 2^31; refuted beyond (int accumulator)."
  },
  {
   "property": "C09",
   "status": "proved",
   "theorems": [
    "C09_pencils",
    "C09_pencils_throw_iff",
    "C09_slabs",
    "C09_int_safe_small_world"
   ],
   "note": "Under int_safe (every k-process box below 2^31 indexes, the int accumulator of C08); implied by worlds of fewer than 2^31 indexes. Source a tiling."
  },
  {
   "property": "C10",
   "status": "partial",
   "theorems": [
    "C10_min_surface_refuted",
    "C10_min_surface_not_minimal_refuted",
    "C10_min_surface_sound_partial",
    "C10_min_surface_partial",
    "C10_min_surface_result_partial",
    "C10_min_surface_exact_partial",
    "C10_min_surface_room_partial"
   ],
   "note": "Full statement refuted; soundness proved for all inputs. Exact: the result has the smallest surface among the grids looked at (C10_min_surface_result_partial), and the claim holds if and only if some grid with the smallest surface is looked at (C10_min_surface_exact_partial), for example when the processes left after direction 0 fit into direction 1."
  },
  {
   "property": "C11",
   "status": "proved",
   "theorems": [
    "C11_directions",
    "C11_rejected_only_without_grid"
   ],
   "note": "All valid geometries and options; also: a plan is rejected only when no admissible grid exists."
  },
  {
   "property": "C12",
   "status": "proved",
   "theorems": [
    "C12_stages_tile",
    "C12_sizes"
   ],
   "note": "Chain of shapes, one box per rank, tilings, r2c shrink."
  },
  {
   "property": "C13",
   "status": "proved",
   "theorems": [
    "C13_complete_lines"
   ],
   "note": "Both as extents and as 'owning one index of a line means owning the line'."
  },
  {
   "property": "C14",
   "status": "partial",
   "theorems": [
    "C14_contiguous_partial",
    "C14_ranks_with_data_partial",
    "C14_contiguous_refuted",
    "C14_natural_order"
   ],
   "note": "Proved for complex plans and for r2c plans whose rank 0 owns an input index, or whose boxes all have the natural order and whose first stage keeps it (first_rank_ok); otherwise the ranks with data agree on the order at every stage, the first and the last transform are contiguous, and so is the second with pencils, a flat world or the real transform in direction 0 (C14_ranks_with_data_partial); refuted for the second transform with slabs (r2c() of an empty box loses its order). Without reordering natural orders stay natural (C14_natural_order)."
  },
  {
   "property": "C15",
   "status": "partial",
   "theorems": [
    "C15_no_new_ranks",
    "C15_subranks_partial",
    "C15_subranks_refuted"
   ],
   "note": "Proved when each user side either is not pencils or holds data on active ranks only; in all cases a rank beyond the limit computes only if the caller gave it data (C15_no_new_ranks). Refuted in general (existing pencils are taken over unchanged)."
  },
  {
   "property": "C16",
   "status": "proved",
   "theorems": [
    "C16_pack_unpack"
   ],
   "note": "Any two boxes with common indexes, same order; entry-exact in terms of the index triples."
  },
  {
   "property": "C17",
   "status": "proved",
   "theorems": [
    "C17_transposing_unpack"
   ],
   "note": "All pairs of orders, all blocking factors."
  },
  {
   "property": "C18",
   "status": "proved",
   "theorems": [
    "C18_alltoallv_delivers",
    "C18_alltoallv_function"
   ],
   "note": "All pairs of tilings, orders, batch sizes, places of the arrays and schedules of the transition system in Coll.v; MPI_Alltoallv as specified in Mpi.v and Coll.v."
  },
  {
   "property": "C19",
   "status": "proved",
   "theorems": [
    "C19_alltoall_delivers",
    "C19_alltoall_function"
   ],
   "note": "As C18, for MPI_Alltoall."
  },
  {
   "property": "C20",
   "status": "proved",
   "theorems": [
    "C20_p2p_delivers",
    "C20_consecutive_reshapes"
   ],
   "note": "All schedules of the transition systems in P2p.v (host) and Async.v (GPU), single and consecutive reshapes; no schedule fails, is infinite or gets stuck."
  },
  {
   "property": "C21",
   "status": "proved",
   "theorems": [
    "C21_algorithms_agree",
    "C21_outcome_exists",
    "C21_reverse_restores",
    "C21_local_reshape"
   ],
   "note": "Pairwise agreement of all outcomes, reverse restores, local transpose and null object."
  },
  {
   "property": "C22",
   "status": "proved",
   "theorems": [
    "C22_groups",
    "C22_alltoallv_counts",
    "C22_alltoall_block",
    "C22_p2p_messages"
   ],
   "note": ""
  },
  {
   "property": "C23",
   "status": "proved",
   "theorems": [
    "C23_buffers_suffice",
    "C23_workspace_of_list"
   ],
   "note": "An access outside of an array is the outcome None, which is excluded for arrays of exactly the stated sizes."
  },
  {
   "property": "C24",
   "status": "partial",
   "theorems": [
    "C24_stock_ready",
    "C24_stock_forward_in_place",
    "C24_objects_exist",
    "C24_forward_in_place",
    "C24_forward_partial",
    "C24_forward_undefined",
    "C24_forward_refuted",
    "C24_forward_real",
    "C24_forward_any_transform_partial",
    "C24_library_ready",
    "C24_library_forward_in_place"
   ],
   "note": "In place and from real input: proved without conditions. Out of place: proved under forward_allowed, which is exact: without it every execution is undefined (C24_forward_undefined; C24_forward_refuted is a case with default options). Exact arithmetic on the real numbers. The calls need executors that do what the header says (factory_ok): proved for the stock backend, whose FFT is modelled, for good lengths (C24_stock_*), and for FFTW, cuFFT, MKL, oneMKL and rocFFT over their documented batches (C31_library_executors, C24_library_*)."
  },
  {
   "property": "C25",
   "status": "partial",
   "theorems": [
    "C25_stock_roundtrip_partial",
    "C25_roundtrip_partial",
    "C25_roundtrip_in_place",
    "C25_backward_refuted",
    "C25_backward_undefined",
    "C25_backward_real_undefined",
    "C25_backward_uninitialised_refuted",
    "C25_roundtrip_real_partial",
    "C25_library_roundtrip_in_place"
   ],
   "note": "In place: proved without conditions, for the three inverse pairs of scalings. Out of place and real: proved under backward_allowed. Its condition on the ranks is exact (C25_backward_undefined, C25_backward_real_undefined, C25_backward_refuted); its condition for 3-D executors is shown to be needed by a counterexample (C25_backward_uninitialised_refuted), not in general."
  },
  {
   "property": "C26",
   "status": "partial",
   "theorems": [
    "C26_in_place_same_partial"
   ],
   "note": "Proved for both directions and any 1-D transforms where the out-of-place call is allowed; C24_forward_refuted, C25_backward_refuted, C25_backward_uninitialised_refuted and C24_forward_undefined, C25_backward_undefined show that the condition is needed."
  },
  {
   "property": "C27",
   "status": "partial",
   "theorems": [
    "C27_batch_partial",
    "C27_batch_r2c_partial",
    "C27_batch_r2c_refuted",
    "C27_batch_r2c_undefined"
   ],
   "note": "fft3d: proved where the call is allowed. fft3d_r2c: proved with reordering, or where every rank with data has work after the first reshape or at most two indexes in the reduced direction. This is exact: otherwise a batched forward call leaves the output array in every execution (C27_batch_r2c_undefined; example C27_batch_r2c_refuted), so the property is false there."
  },
  {
   "property": "C28",
   "status": "partial",
   "theorems": [
    "C28_workspace_partial",
    "C28_workspace_r2c_partial"
   ],
   "note": "Proved for all allowed calls of both classes, both directions."
  },
  {
   "property": "C29",
   "status": "partial",
   "theorems": [
    "C29_stock_ready",
    "C29_stock_roundtrip_partial",
    "C29_forward_partial",
    "C29_roundtrip_partial",
    "C29_backward_refuted",
    "C29_backward_undefined",
    "C29_first_rank_refuted",
    "C29_library_ready",
    "C29_library_roundtrip_partial"
   ],
   "note": "Proved for backends with correct executors when the first rank holds an index or all boxes have the natural order and the first stage keeps it (first_rank_ok), forward under forward_allowed_r2c (exact, C27_batch_r2c_undefined), and backward under backward_allowed_r2c (exact, C29_backward_undefined); C29_backward_refuted and C29_first_rank_refuted are counterexamples."
  },
  {
   "property": "C30",
   "status": "proved",
   "theorems": [
    "C30_r2r_scaling",
    "C30_scaling_complex",
    "C30_scaling_real",
    "C30_scaling_consistent"
   ],
   "note": "Fourier transforms: C30_scaling...; cosine and sine transforms: C30_r2r_scaling, with the constants of C34_inverse."
  },
  {
   "property": "C31",
   "status": "proved",
   "theorems": [
    "C31_lines_cover",
    "C31_half_lines_cover",
    "C31_groups_cover",
    "C31_executors",
    "C31_library_executors"
   ],
   "note": "Addresses of the stock executors (complex and real-to-complex) for all boxes, orders, directions; groups of transforms for all numbers of lanes; executors correct for all good lengths. The 1-D executors of all five external libraries: C31_library_executors."
  },
  {
   "property": "C32",
   "status": "partial",
   "theorems": [
    "C32_stock_dft_partial",
    "C32_small_lengths",
    "C32_largest_square_refuted",
    "C32_exact_partial"
   ],
   "note": "Proved for all lengths not divisible by the square of their largest prime factor (if that is 1217 or more) nor by a prime above 2642245, in particular all below 1481089. If the square of the largest prime factor divides the length the result is wrong (C32_largest_square_refuted), so the condition is exact (C32_exact_partial). Open: primes above 2642245, where exponents wrap."
  },
  {
   "property": "C33",
   "status": "proved",
   "theorems": [
    "C33_call_tree"
   ],
   "note": "All lengths >= 1."
  },
  {
   "property": "C34",
   "status": "partial",
   "theorems": [
    "C34_gpu_executors_partial",
    "C34_gpu_ready_partial",
    "C34_gpu_forward_in_place_partial",
    "C34_gpu_roundtrip_in_place_partial",
    "C34_executors",
    "C34_stock_ready",
    "C34_forward_partial",
    "C34_forward_in_place",
    "C34_backward_partial",
    "C34_stock_forward_in_place",
    "C34_inverse",
    "C34_roundtrip_partial",
    "C34_roundtrip_in_place",
    "C34_backward_eightfold",
    "C34_documented_backward_refuted",
    "C34_cos1_length1_refuted",
    "C34_fftw_ready",
    "C34_fftw_forward_in_place",
    "C34_library_ready"
   ],
   "note": "The executors of the CPU backends compute the sums over any correct real-to-complex FFT, and over the stock FFT without assumptions (for its lengths, see C32). forward/backward/roundtrip: in place without conditions, out of place under forward_allowed/backward_allowed. The documented identification of backward() with FFTW's transforms is refuted by a factor (C34_documented_backward_refuted), length 1 of the type I cosine transform crashes (C34_cos1_length1_refuted). FFTW: its own transforms (C34_fftw_ready). cuFFT, rocFFT and oneMKL: the kernels of PropGpu.v in the executor, with the alignment of the workspace (C34_gpu_*_partial), for lines whose extended length is an int."
  },
  {
   "property": "C35",
   "status": "partial",
   "theorems": [
    "C35_two_directions_partial",
    "C35_three_directions_partial",
    "C35_order_refuted",
    "C35_call_refuted"
   ],
   "note": "Proved for boxes in the natural order and all five libraries; refuted for other orders, for the executors and for whole calls with the default options of cuFFT, MKL and oneMKL. The libraries are modelled after their manuals."
  },
  {
   "property": "C36",
   "status": "partial",
   "theorems": [
    "C36_short_partial",
    "C36_long_enough",
    "C36_backward_real_refuted",
    "C36_r2c_backward_refuted",
    "C36_forward_returns_partial",
    "C36_forward_real_returns",
    "C36_roundtrip_partial",
    "C36_roundtrip_r2c_partial"
   ],
   "note": "Proved for all overloads but two: any too short vector makes the call throw and nothing else can happen, long enough vectors are never refused, and what is returned is the transform in vectors of exactly the size of the box. fft3d::backward_real and fft3d_r2c::backward have no check and read beyond the end (C36_backward_real_refuted, C36_r2c_backward_refuted)."
  },
  {
   "property": "C37",
   "status": "partial",
   "theorems": [
    "C37_pack_partial",
    "C37_unpack_partial",
    "C37_transpose_partial",
    "C37_gpu_pack_partial",
    "C37_gpu_unpack_partial",
    "C37_large_pack_refuted",
    "C37_sycl_pack",
    "C37_sycl_unpack",
    "C37_scalars",
    "C37_scale_partial",
    "C37_gpu_scale_partial",
    "C37_gpu_scale_complex_partial",
    "C37_large_scale_refuted",
    "C37_sycl_scale",
    "C37_sycl_scale_complex",
    "C37_to_complex_partial",
    "C37_to_real_partial",
    "C37_gpu_to_complex_partial",
    "C37_gpu_to_real_partial",
    "C37_sycl_to_complex",
    "C37_sycl_to_real",
    "C37_empty_convert_refuted",
    "C37_lines_before_partial",
    "C37_lines_after_partial",
    "C37_same_entry_refuted"
   ],
   "note": "All kernels of CUDA, ROCm and oneAPI give the result of the CPU code for every grid, block size and interleaving. Missing: sizes beyond the range of the index type, where the statement is false for CUDA and ROCm (C37_large_pack_refuted, C37_large_scale_refuted)."
  },
  {
   "property": "C38",
   "status": "partial",
   "theorems": [
    "C38_options_corrected",
    "C38_plan_keeps_options",
    "C38_use_subcomm_refuted"
   ],
   "note": "Option correction proved; the use_subcomm part is refuted: it acts as use_num_subranks(1)."
  },
  {
   "property": "C39",
   "status": "partial",
   "theorems": [
    "C39_programs_partial",
    "C39_success",
    "C39_invalid_backend",
    "C39_dead_plan_refuted",
    "C39_default_options_refuted",
    "C39_null_options_refuted",
    "C39_default_options_partial",
    "C39_algorithm_refuted",
    "C39_exception_refuted",
    "C39_scalings",
    "C39_sizes_refuted",
    "C39_complex_call_undefined"
   ],
   "note": "All programs that give all options get the documented answers. Missing, since false: options NULL or from heffte_set_default_options alone, invalid algorithms, exceptions, sizes beyond int, the plan after a failed creation (see the refuted theorems)."
  },
  {
   "property": "C40",
   "status": "partial",
   "theorems": [
    "C40_reshape_same",
    "C40_each_place_partial",
    "C40_options_same_partial",
    "C40_options_same_in_place"
   ],
   "note": "Reshapes (all four algorithms, staged or not): full. Transforms in place: full. Out of place and real calls: under the conditions of C24 and C25, whose necessity is refuted there (C24_forward_refuted, C25_backward_refuted). Copies to the host wait for the stream; copies to the GPU take the data when they are called and arrive in the order of the stream."
  },
  {
   "property": "C41",
   "status": "partial",
   "theorems": [
    "C41_objects",
    "C41_apply_partial",
    "C41_workspace_partial",
    "C41_padded_refuted",
    "C41_workspace_padded_refuted",
    "C41_workspace_int_refuted",
    "C41_large_box_refuted"
   ],
   "note": "Construction: full. Applying: full except for the padded all-to-all, which needs a bound on the padded messages (C41_padded_refuted shows that the bound on the arrays is not enough). Workspace size: needs a bound on the sum of both arrays and for the padded all-to-all on the longest message (C41_workspace_padded_refuted, C41_workspace_int_refuted). Local arrays of 2^31 entries fail also with long long (C41_large_box_refuted). Loops inside of the packers and size_t expressions are not part of this claim."
  },
  {
   "property": "C42",
   "status": "proved",
   "theorems": [
    "C42_operations",
    "C42_constructors",
    "C42_or_operands",
    "C42_fft_each",
    "C42_fft_dft_partial",
    "C42_plans",
    "C42_backend",
    "C42_forward_in_place"
   ],
   "note": "All operations, the FFT and the plans for all six vector types in exact arithmetic. The intrinsics are modelled after Intel's manual. C42_fft_dft_partial inherits the restriction on lengths of C32; the other theorems hold for all lengths."
  },
  {
   "property": "C43",
   "status": "partial",
   "theorems": [
    "C43_types",
    "C43_fft_error_partial",
    "C43_counted_partial",
    "C43_small",
    "C43_forward_error_partial",
    "C43_backward_error_partial",
    "C43_roundtrip_partial",
    "C43_r2c_forward_error_partial",
    "C43_r2c_backward_error_partial",
    "C43_scaling_partial",
    "C43_scaled_roundtrip_partial",
    "C43_r2c_roundtrip_partial",
    "C43_r2r_forward_error_partial",
    "C43_r2r_backward_error_partial",
    "C43_r2r_scaling_partial",
    "C43_r2r_roundtrip_partial"
   ],
   "note": "Transforms of fft3d and fft3d_r2c with the built-in FFT, complex, real, sine and cosine, with and without scaling. Missing: overflow, underflow and special values; lengths excluded by C32; the calls that C24-C29 exclude; the rounding of other libraries. K is a worst-case count (it grows linearly with the length, since the code computes twiddle factors by repeated multiplication), not a sharp constant."
  },
  {
   "property": "C44",
   "status": "partial",
   "theorems": [
    "C44_linear_partial",
    "C44_shift_partial",
    "C44_convolution_partial",
    "C44_real_convolution_partial",
    "C44_energy_partial",
    "C44_isometry_partial",
    "C44_two_dimensions_partial"
   ],
   "note": "Complete programs, with the calls that C24, C25, C27 and C29 cover: in place always, out of place under the conditions of C24 and C25; fft3d_r2c under the exact condition of C27 for batches (forward_allowed_r2c). Exact arithmetic."
  },
  {
   "property": "C45",
   "status": "partial",
   "theorems": [
    "C45_values_partial",
    "C45_one_owner_partial",
    "C45_no_leak_partial",
    "C45_cuda_rocm",
    "C45_two_contexts_refuted",
    "C45_failed_allocation_refuted"
   ],
   "note": "Full for CUDA and ROCm (C45_cuda_rocm). With oneAPI the streams used must belong to one context and allocations must not fail: otherwise the claim is false (C45_two_contexts_refuted, C45_failed_allocation_refuted). One scalar type; copies queued on a stream are taken as done."
  },
  {
   "property": "C46",
   "status": "partial",
   "theorems": [
    "C46_collective_schedules",
    "C46_p2p_schedules",
    "C46_after_return",
    "C46_host_complete",
    "C46_complete_on_return_refuted",
    "C46_calls_partial",
    "C46_forward_in_place"
   ],
   "note": "Reshapes, all four algorithms: full (C46_collective_schedules, C46_p2p_schedules, C46_after_return). Calls of fft3d in place: full; other calls under the conditions of C24 and C25. That the result is there when the call returns is false on a GPU (C46_complete_on_return_refuted) and true on the host (C46_host_complete). Kernels of one stream run in order; the launches of one loop and the local work between two reshapes are single kernels."
  },
  {
   "property": "C47",
   "status": "partial",
   "theorems": [
    "C47_calls",
    "C47_timing_loop",
    "C47_timing_loop_r2c_partial",
    "C47_convolution_benchmark",
    "C47_own_settings",
    "C47_filter_steps"
   ],
   "note": "Any sequence of permitted calls of any objects, each with its own batch size, algorithm (collective or point to point) and place of the arrays (host, GPU) (C47_calls). The programs of the benchmarks: complex round trips in place and filters in place without further conditions (C47_timing_loop, C47_filter_steps, C47_convolution_benchmark), real to complex under the conditions of C29, which is what is missing."
  },
  {
   "property": "C48",
   "status": "partial",
   "theorems": [
    "C48_programs_partial",
    "C48_forward_partial",
    "C48_backward_partial",
    "C48_backward_refuted",
    "C48_backward_overrun_refuted",
    "C48_backward_workspace_refuted",
    "C48_r2c_complex_refuted",
    "C48_arrays_refuted",
    "C48_options_refuted",
    "C48_failed_creation_refuted",
    "C48_split_world_partial",
    "C48_split_world_refuted",
    "C48_proc_setup"
   ],
   "note": "All programs that stay within careful_program see what is documented; forward and backward exactly characterised; proc_setup complete. Missing, since false: backward where the boxes of a rank have different sizes, workspaces that are too small in backward, complex arrays for r2c objects, strided arrays and arrays in the wrong memory, options (a field is missing), failed creations, split_world where the grid does not divide the world (see the refuted theorems)."
  },
  {
   "property": "C49",
   "status": "proved",
   "theorems": [
    "C49_gather",
    "C49_fft3d_constructed",
    "C49_fft3d_r2c_constructed"
   ],
   "note": "Boxes as bytes (two's complement, one byte order on all ranks) through MPI_Allgather; composed with the setup for which C24-C30 hold."
  },
  {
   "property": "C50",
   "status": "partial",
   "theorems": [
    "C50_programs_partial",
    "C50_released",
    "C50_assignment_refuted",
    "C50_null_refuted",
    "C50_address_refuted",
    "C50_constructors",
    "C50_constructed",
    "C50_r2c_constructed",
    "C50_transforms",
    "C50_scaling"
   ],
   "note": "All careful programs do what their text says; constructors and generic procedures complete. Missing, since false: x = y where x already has an object, assigning an unassigned variable to another name, and a new object assigned to another name of a deleted object (see the refuted theorems). Exceptions of constructors are not modelled beyond that they leave the program."
  },
  {
   "property": "C51",
   "status": "partial",
   "theorems": [
    "C51_stock_executors",
    "C51_r2r_executors_partial",
    "C51_constructors_partial",
    "C51_calls_partial",
    "C51_small_domain",
    "C51_magma_partial",
    "C51_batch_refuted",
    "C51_large_box_refuted",
    "C51_r2r_refuted",
    "C51_magma_refuted"
   ],
   "note": "The stock executors: full. Constructors: need besides a bound on both arrays of a reshape together and, with the padded all-to-all, on its messages (as C41). Calls: full except for the padded all-to-all. In terms of the domain alone: C51_small_domain. Sine and cosine transforms need eight times the entries (C51_r2r_refuted), the scaling with MAGMA twice (C51_magma_refuted). Batches of 2^31 entries overflow with every index type (C51_batch_refuted). The trees of the built-in FFT, the vendor executors and the loops of the sine and cosine processors are not part of this claim."
  },
  {
   "property": "C52",
   "status": "partial",
   "theorems": [
    "C52_log",
    "C52_block",
    "C52_transparent",
    "C52_call_statements",
    "C52_call_events",
    "C52_same_events",
    "C52_time",
    "C52_sum_refuted",
    "C52_names_refuted",
    "C52_messages_partial",
    "C52_isend_size_refuted",
    "C52_unpacking_partial",
    "C52_unpacking_refuted",
    "C52_files",
    "C52_files_distinct",
    "C52_file_name_refuted"
   ],
   "note": "Proved for the log, the blocks, transparency, the counts of events, the time of each name and the files. The messages in the logs agree except when copied through host memory with p2p_plined and a batch (C52_isend_size_refuted); the ranks in \"unpacking from\" are right only when copied through host memory (C52_unpacking_refuted). Some names are misleading (C52_names_refuted, C52_sum_refuted, C52_file_name_refuted). The text format of the files is not modelled."
  },
  {
   "property": "C53",
   "status": "partial",
   "theorems": [
    "C53_single_calls",
    "C53_batches_partial",
    "C53_batches_reordered_partial",
    "C53_batches_refuted"
   ],
   "note": "Proved for calls without a batch. With a batch the exact condition is proved (an even number of local real entries, or lines that are columns of several planes); without it the claim is false (C53_batches_refuted, finding 34)."
  },
  {
   "property": "C54",
   "status": "partial",
   "theorems": [
    "C54_ranges",
    "C54_grids_partial",
    "C54_split",
    "C54_pencils",
    "C54_slabs",
    "C54_stages",
    "C54_grids_refuted"
   ],
   "note": "Number of ranges for every plan (C54_ranges). Grid dimensions where the boxes form a grid and the ranks without indexes have the box 0..-1 (C54_grids_partial); so do split_world, the pencils, and the slabs where there are enough planes (C54_split, C54_pencils, C54_slabs), and all stages of a plan if the user's boxes do and there are enough planes for slabs (C54_stages). Refuted for other boxes without indexes (C54_grids_refuted)."
  }
 ]
}