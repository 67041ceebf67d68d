{
 "claims": [
  {
   "property": "C01",
   "status": "proved",
   "theorems": [
    "C01_stack_read",
    "C01_stack_past_end",
    "C01_stack_getitem_slice"
   ],
   "note": "FileStack.read proved equal to slicing the concatenation for every in-range slice with positive step; past-the-end reads refused."
  },
  {
   "property": "C02",
   "status": "proved",
   "theorems": [
    "C02_mask",
    "C02_stack_is_reader",
    "C02_binary_is_reader",
    "C02_ints",
    "C02_int",
    "C02_slice"
   ],
   "note": "Proved for any reader that reads forward slices; stacks and binary columns proved to be such readers."
  },
  {
   "property": "C03",
   "status": "proved",
   "theorems": [
    "C03_binary_read",
    "C03_getsize",
    "C03_getsize_exact",
    "C03_offset_is_column_start",
    "C03_columns_disjoint"
   ],
   "note": "Row-exact column reads, disjoint column extents, exact row count."
  },
  {
   "property": "C04",
   "status": "proved",
   "theorems": [
    "C04_gather_concatenates",
    "C04_gather_refuses_mismatch",
    "C04_scatter_even",
    "C04_scatter_counts",
    "C04_scatter_refuses_bad_counts",
    "C04_scatter_gather"
   ],
   "note": "MPI Gatherv/Scatterv modelled as writes at offsets into an uninitialised buffer."
  },
  {
   "property": "C05",
   "status": "proved",
   "theorems": [
    "C05_front_pad",
    "C05_front_too_large"
   ],
   "note": "Full behaviour, including the refusal."
  },
  {
   "property": "C06",
   "status": "proved",
   "theorems": [
    "C06_rows_once",
    "C06_query_range"
   ],
   "note": "First-level queries; nesting is C53."
  },
  {
   "property": "C07",
   "status": "proved",
   "theorems": [
    "C07_serial",
    "C07_layout_independent"
   ],
   "note": "numpy samplers are an arbitrary function argument; prefix stability is the hypothesis that separates them."
  },
  {
   "property": "C08",
   "status": "proved",
   "theorems": [
    "C08_groups_disjoint",
    "C08_all_ranks_covered",
    "C08_full_groups",
    "C08_colors"
   ],
   "note": "All N, n and both modes; the colours of comm.Split included."
  },
  {
   "property": "C09",
   "status": "proved",
   "theorems": [
    "C09_exactly_once",
    "C09_one_at_a_time",
    "C09_no_deadlock",
    "C09_terminates",
    "C09_can_complete",
    "C09_map_in_order"
   ],
   "note": "Labelled transition system over FIFO channels; every schedule. MPI message order per pair of ranks and the group barrier/bcast are the trusted contracts; exceptions inside tasks are not modelled."
  },
  {
   "property": "C10",
   "status": "proved",
   "theorems": [
    "C10_options_restored",
    "C10_object_restores_snapshot",
    "C10_options_in_scope",
    "C10_unknown_option",
    "C10_cache_follows_options",
    "C10_comm_restored",
    "C10_comm_restored_no_try",
    "C10_comm_scope_is_explicit_comm"
   ],
   "note": "Structured programs with nested scopes, exceptions and handlers; logging and the barriers of push/pop are not modelled."
  },
  {
   "property": "C11",
   "status": "proved",
   "theorems": [
    "C11_assign",
    "C11_assign_refused",
    "C11_last_write",
    "C11_created",
    "C11_delete",
    "C11_delete_refused",
    "C11_columns",
    "C11_view"
   ],
   "note": "Columns are lists of rows, dask laziness not modelled; view(type) only with type=None."
  },
  {
   "property": "C12",
   "status": "proved",
   "theorems": [
    "C12_slice",
    "C12_slice_defined",
    "C12_select_columns",
    "C12_select_missing"
   ],
   "note": "One rank; numpy/dask indexing of one column is given by an independent specification."
  },
  {
   "property": "C13",
   "status": "proved",
   "theorems": [
    "C13_gslice_even",
    "C13_gslice_local",
    "C13_gslice_negative",
    "C13_gslice_zero"
   ],
   "note": "Rows carry all columns; the collective calls are those of C04."
  },
  {
   "property": "C14",
   "status": "proved",
   "theorems": [
    "C14_sort",
    "C14_refused",
    "C14_refused_type"
   ],
   "note": "mpsort is an argument with the stated contract (stable, sizes kept); floats are IEEE bit patterns, NaN patterns rank above infinity."
  },
  {
   "property": "C15",
   "status": "proved",
   "theorems": [
    "C15_exactly_once",
    "C15_mean",
    "C15_mean_one",
    "C15_out_adds"
   ],
   "note": "Exact rationals for floats; pmesh decompose/exchange/paint summed up by a window function per particle, the interlacing average is an argument."
  },
  {
   "property": "C16",
   "status": "proved",
   "theorems": [
    "C16_apply",
    "C16_apply_refused",
    "C16_frame",
    "C16_compute",
    "C16_compensated_once",
    "C16_result_attrs"
   ],
   "note": "Functions and transforms are arguments, r2c and c2r mutually inverse; resampling to another Nmesh is not modelled."
  },
  {
   "property": "C17",
   "status": "proved",
   "theorems": [
    "C17_merge",
    "C17_call"
   ],
   "note": "The reduction over ranks is any binary grouping of any order of the ranks."
  },
  {
   "property": "C18",
   "status": "proved",
   "theorems": [
    "C18_clone_sets",
    "C18_clone_translated",
    "C18_clone_conflicts_gone",
    "C18_clone_keeps",
    "C18_clone_identity",
    "C18_refuses",
    "C18_clone_total",
    "C18_clone_again",
    "C18_class_pars"
   ],
   "note": "the four names missing in the conflict table are excluded (C100, C104); equality of dictionaries is pointwise; CLASS itself is outside"
  },
  {
   "property": "C19",
   "status": "proved",
   "theorems": [
    "C19_unique_labels",
    "C19_meaning"
   ],
   "note": "Model of a one-dimensional integer array; labels compared with the number of distinct smaller values."
  },
  {
   "property": "C20",
   "status": "proved",
   "theorems": [
    "C20_shared",
    "C20_shared_gaps",
    "C20_unshared"
   ],
   "note": "Counts in any commutative monoid; the dense case and the general case are separate theorems."
  },
  {
   "property": "C21",
   "status": "proved",
   "theorems": [
    "C21_labels"
   ],
   "note": "mpsort is assumed to be a stable sort keeping local sizes, argsort any sorting permutation, kdcount to give the local groups labelled 0.. without gaps; all hypotheses are stated."
  },
  {
   "property": "C22",
   "status": "proved",
   "theorems": [
    "C22_merge",
    "C22_same_id",
    "C22_friends"
   ],
   "note": "Termination is stated as existence of enough fuel; gather(fmin) and exchange of pmesh are modelled by the copies of each particle."
  },
  {
   "property": "C23",
   "status": "proved",
   "theorems": [
    "C23_reindex",
    "C23_total",
    "C23_constant",
    "C23_leftover_refused",
    "C23_average",
    "C23_bin_total"
   ],
   "note": "Exact rationals stand for floats; numpy.round and allclose modelled."
  },
  {
   "property": "C24",
   "status": "proved",
   "theorems": [
    "C24_getitem",
    "C24_contiguous_edges",
    "C24_take",
    "C24_sel",
    "C24_names",
    "C24_refused"
   ],
   "note": "Keys with several lists, negative list entries and lists apart from integers excluded (see C74, C75)."
  },
  {
   "property": "C25",
   "status": "proved",
   "theorems": [
    "C25_call",
    "C25_history",
    "C25_as_set"
   ],
   "note": "Lists modelled as shared mutable objects."
  },
  {
   "property": "C26",
   "status": "proved",
   "theorems": [
    "C26_round_trip",
    "C26_numpy_numbers",
    "C26_tuple"
   ],
   "note": ""
  },
  {
   "property": "C27",
   "status": "proved",
   "theorems": [
    "C27_read",
    "C27_read_limited",
    "C27_one_block",
    "C27_every_file"
   ],
   "note": ""
  },
  {
   "property": "C28",
   "status": "proved",
   "theorems": [
    "C28_assigned",
    "C28_no_collision"
   ],
   "note": ""
  },
  {
   "property": "C29",
   "status": "proved",
   "theorems": [
    "C29_groups"
   ],
   "note": "pmesh exchange, kdcount pairs, pandas sort and mpsort enter through contracts (exchange_ok, by_desc_contract, mpsort_out_contract); exact rationals for positions."
  },
  {
   "property": "C30",
   "status": "proved",
   "theorems": [
    "C30_legendre",
    "C30_projection",
    "C30_spectrum",
    "C30_blocks"
   ],
   "note": "C30_legendre: the Legendre polynomials in the statement are the polynomials of degree l, orthogonal on [-1, 1] with value 1 at 1, not just the result of the recursion in the model."
  },
  {
   "property": "C31",
   "status": "proved",
   "theorems": [
    "C31_projected"
   ],
   "note": ""
  },
  {
   "property": "C32",
   "status": "proved",
   "theorems": [
    "C32_triplets"
   ],
   "note": "Coq Reals; kdcount enumeration (enum_ok), domain decomposition (decomposed) and sympy spherical harmonics (addition theorem, proved of YlmCache for all l in C153) enter as contracts."
  },
  {
   "property": "C33",
   "status": "proved",
   "theorems": [
    "C33_constructor",
    "C33_read",
    "C33_set_accepted",
    "C33_set_needs_species",
    "C33_last_write",
    "C33_delete",
    "C33_frame",
    "C33_frame_species",
    "C33_columns",
    "C33_columns_nodup"
   ],
   "note": ""
  },
  {
   "property": "C34",
   "status": "proved",
   "theorems": [
    "C34_species_average",
    "C34_species_mean"
   ],
   "note": "As C15; species with non-positive total weight excluded (see C67)."
  },
  {
   "property": "C35",
   "status": "proved",
   "theorems": [
    "C35_bins",
    "C35_one_bin",
    "C35_total",
    "C35_density",
    "C35_automatic"
   ],
   "note": ""
  },
  {
   "property": "C36",
   "status": "proved",
   "theorems": [
    "C36_natural",
    "C36_shells",
    "C36_wedges",
    "C36_rings"
   ],
   "note": "Over the real numbers of the standard library (its axioms are listed); the natural estimate over rationals."
  },
  {
   "property": "C37",
   "status": "proved",
   "theorems": [
    "C37_pairs"
   ],
   "note": "End-to-end over decompose_box_data, chunks, merge. GridND, Corrfunc and sqrt enter by contract; angular mode and surveys are not modelled."
  },
  {
   "property": "C38",
   "status": "proved",
   "theorems": [
    "C38_factors"
   ],
   "note": "The two roots are function arguments, only assumed non-negative."
  },
  {
   "property": "C39",
   "status": "proved",
   "theorems": [
    "C39_box",
    "C39_given",
    "C39_refused"
   ],
   "note": ""
  },
  {
   "property": "C40",
   "status": "partial",
   "theorems": [
    "C40_second_run",
    "C40_never_again",
    "C40_instance_refuted"
   ],
   "note": ""
  },
  {
   "property": "C41",
   "status": "proved",
   "theorems": [
    "C41_los",
    "C41_axes"
   ],
   "note": "Longer strings are C93."
  },
  {
   "property": "C42",
   "status": "proved",
   "theorems": [
    "C42_shift"
   ],
   "note": "Strict inequalities, as in the code; see C94 and C95."
  },
  {
   "property": "C43",
   "status": "proved",
   "theorems": [
    "C43_unit_los",
    "C43_direction",
    "C43_refused",
    "C43_schemes",
    "C43_mean_zero",
    "C43_boost"
   ],
   "note": ""
  },
  {
   "property": "C44",
   "status": "proved",
   "theorems": [
    "C44_points",
    "C44_ranks",
    "C44_key"
   ],
   "note": ""
  },
  {
   "property": "C45",
   "status": "proved",
   "theorems": [
    "C45_published_codes",
    "C45_codes_distinct",
    "C45_two_types"
   ],
   "note": ""
  },
  {
   "property": "C46",
   "status": "proved",
   "theorems": [
    "C46_random_catalog_total",
    "C46_uniform_seeded_total"
   ],
   "note": "Seeded or explicit totals; the unseeded case is C55."
  },
  {
   "property": "C47",
   "status": "proved",
   "theorems": [
    "C47_exclude",
    "C47_accepts"
   ],
   "note": ""
  },
  {
   "property": "C48",
   "status": "proved",
   "theorems": [
    "C48_copy_same",
    "C48_independent"
   ],
   "note": "Heap model with object identities and shared attribute dictionaries."
  },
  {
   "property": "C49",
   "status": "proved",
   "theorems": [
    "C49_to_astropy_w"
   ],
   "note": ""
  },
  {
   "property": "C50",
   "status": "proved",
   "theorems": [
    "C50_bounds_are_extremes",
    "C50_bounds_total"
   ],
   "note": "One component; float values modelled as integers."
  },
  {
   "property": "C51",
   "status": "partial",
   "theorems": [
    "C51_negative_step_refuted",
    "C51_reversed_bounds_refuted",
    "C51_empty_mask_raises_partial",
    "C51_empty_mask_refuted",
    "C51_binary_out_of_range_refuted",
    "C51_binary_reversed_bounds_refuted"
   ],
   "note": "Refuted: negative steps, reversed bounds, all-False masks and out-of-range rows fail or return foreign bytes."
  },
  {
   "property": "C52",
   "status": "partial",
   "theorems": [
    "C52_gather_mismatch_other_root_refuted",
    "C52_scatter_other_root_refuted"
   ],
   "note": "Refuted: mismatch flags are broadcast from rank 0, scatter tests comm.rank == 0."
  },
  {
   "property": "C53",
   "status": "partial",
   "theorems": [
    "C53_nested_absolute_refuted",
    "C53_nested_relative_refuted",
    "C53_range_escapes_refuted",
    "C53_query_partial"
   ],
   "note": "Refuted: the start offset is added but not accumulated. The one-step law is proved as C53_query_partial."
  },
  {
   "property": "C54",
   "status": "partial",
   "theorems": [
    "C54_unstable_sampler_refuted"
   ],
   "note": "Refuted with a permuting sampler."
  },
  {
   "property": "C55",
   "status": "partial",
   "theorems": [
    "C55_uniform_unseeded_refuted"
   ],
   "note": "Refuted: every rank draws its own total."
  },
  {
   "property": "C56",
   "status": "partial",
   "theorems": [
    "C56_bounds_uneven_refuted",
    "C56_bounds_selection_refuted"
   ],
   "note": "Refuted: numpy min of an empty chunk raises."
  },
  {
   "property": "C57",
   "status": "partial",
   "theorems": [
    "C57_comm_restored_on_exception_refuted",
    "C57_leak_count_partial"
   ],
   "note": "Refuted: enter() has no try/finally. The exact number of communicators left behind is proved as C57_leak_count_partial."
  },
  {
   "property": "C58",
   "status": "partial",
   "theorems": [
    "C58_slice_attrs_refuted"
   ],
   "note": "Refuted: __finalize__ copies the reference to _attrs."
  },
  {
   "property": "C59",
   "status": "partial",
   "theorems": [
    "C59_copy_refuted"
   ],
   "note": "Refuted: copy() reads self._attrs, which exists only after attrs was used."
  },
  {
   "property": "C60",
   "status": "partial",
   "theorems": [
    "C60_uncover_hard_refuted"
   ],
   "note": "Refuted: hard names are never deletable."
  },
  {
   "property": "C61",
   "status": "partial",
   "theorems": [
    "C61_reversed_refuted"
   ],
   "note": "Refuted: the slice becomes a boolean mask."
  },
  {
   "property": "C62",
   "status": "partial",
   "theorems": [
    "C62_reverse_int_refuted"
   ],
   "note": "Refuted for every sorter meeting the contract: integer keys are never negated."
  },
  {
   "property": "C63",
   "status": "partial",
   "theorems": [
    "C63_negative_floats_refuted"
   ],
   "note": "Refuted for every sorter meeting the contract: bit patterns of negative floats are in opposite order."
  },
  {
   "property": "C64",
   "status": "proved",
   "theorems": [
    "C64_index"
   ],
   "note": "All rank sizes."
  },
  {
   "property": "C65",
   "status": "partial",
   "theorems": [
    "C65_even_refuted"
   ],
   "note": "Refuted: mpsort keeps the sizes of the input."
  },
  {
   "property": "C66",
   "status": "partial",
   "theorems": [
    "C66_mean_one_for_values_refuted"
   ],
   "note": "Refuted: the values enter the deposit but not the normalisation."
  },
  {
   "property": "C67",
   "status": "partial",
   "theorems": [
    "C67_empty_species_shotnoise_refuted"
   ],
   "note": "Refuted: its own shot noise is nan and enters the sum."
  },
  {
   "property": "C68",
   "status": "partial",
   "theorems": [
    "C68_member_compensated_once_refuted"
   ],
   "note": "Refuted: __finalize__ copies the actions, compensation included, and the member adds its own."
  },
  {
   "property": "C69",
   "status": "proved",
   "theorems": [
    "C69_state"
   ],
   "note": "The JSON text itself is C26."
  },
  {
   "property": "C70",
   "status": "partial",
   "theorems": [
    "C70_fields_lost_refuted"
   ],
   "note": "Refuted: _fields_to_sum is not in the state."
  },
  {
   "property": "C71",
   "status": "partial",
   "theorems": [
    "C71_integer_mean_refuted"
   ],
   "note": "Refuted: assignment to the integer column truncates."
  },
  {
   "property": "C72",
   "status": "partial",
   "theorems": [
    "C72_uneven_refuted"
   ],
   "note": "Refuted: the check compares the spacings with themselves."
  },
  {
   "property": "C73",
   "status": "partial",
   "theorems": [
    "C73_average_uneven_refuted"
   ],
   "note": "Refuted: the factor is computed from the first two centres and the rest is left over."
  },
  {
   "property": "C74",
   "status": "partial",
   "theorems": [
    "C74_list_edges_refuted"
   ],
   "note": "Refuted: only the last upper edge is added."
  },
  {
   "property": "C75",
   "status": "partial",
   "theorems": [
    "C75_mixed_key_refuted"
   ],
   "note": "Refuted: numpy moves the list axis to the front and the data is reshaped."
  },
  {
   "property": "C76",
   "status": "partial",
   "theorems": [
    "C76_leak_refuted"
   ],
   "note": "Refuted: fields_to_sum += mutates the default argument."
  },
  {
   "property": "C77",
   "status": "partial",
   "theorems": [
    "C77_sel_order_refuted"
   ],
   "note": "Refuted: take goes through a boolean mask."
  },
  {
   "property": "C78",
   "status": "partial",
   "theorems": [
    "C78_coords_refuted"
   ],
   "note": "Refuted: coordinates are recomputed from the edges."
  },
  {
   "property": "C79",
   "status": "partial",
   "theorems": [
    "C79_weighted_missing_refuted"
   ],
   "note": "Refuted: nansum leaves out the value, the sum of weights keeps its weight."
  },
  {
   "property": "C80",
   "status": "partial",
   "theorems": [
    "C80_average_1d_refuted"
   ],
   "note": "Refuted: sel refuses to squeeze all dimensions."
  },
  {
   "property": "C81",
   "status": "partial",
   "theorems": [
    "C81_take_mask_refuted"
   ],
   "note": "Refuted: the mask is required to hold throughout, for every dimension, so all bins of the others go."
  },
  {
   "property": "C82",
   "status": "proved",
   "theorems": [
    "C82_concat"
   ],
   "note": "mpsort with given output sizes is assumed to sort by position."
  },
  {
   "property": "C83",
   "status": "proved",
   "theorems": [
    "C83_cempty"
   ],
   "note": "Integer division as in the code."
  },
  {
   "property": "C84",
   "status": "partial",
   "theorems": [
    "C84_nmin_refuted"
   ],
   "note": "Refuted: the comparison is <=, so groups of exactly nmin members get label 0."
  },
  {
   "property": "C85",
   "status": "partial",
   "theorems": [
    "C85_empty_rank_refuted"
   ],
   "note": "Refuted: label.max() of an empty array raises ValueError."
  },
  {
   "property": "C86",
   "status": "partial",
   "theorems": [
    "C86_empty_array_refuted"
   ],
   "note": "Refuted: next(iter(set())) raises StopIteration."
  },
  {
   "property": "C87",
   "status": "partial",
   "theorems": [
    "C87_max_label_refuted"
   ],
   "note": "Refuted: allgather returns the list of the local maxima."
  },
  {
   "property": "C88",
   "status": "proved",
   "theorems": [
    "C88_length"
   ],
   "note": "One row per label."
  },
  {
   "property": "C89",
   "status": "proved",
   "theorems": [
    "C89_cm"
   ],
   "note": "One axis, exact rationals."
  },
  {
   "property": "C90",
   "status": "proved",
   "theorems": [
    "C90_cm_periodic"
   ],
   "note": "One axis, exact rationals."
  },
  {
   "property": "C91",
   "status": "proved",
   "theorems": [
    "C91_peaks"
   ],
   "note": "Exact rationals."
  },
  {
   "property": "C92",
   "status": "partial",
   "theorems": [
    "C92_order_refuted"
   ],
   "note": "Refuted: s = 2 gives (2, 1, 1)."
  },
  {
   "property": "C93",
   "status": "partial",
   "theorems": [
    "C93_los_refuted"
   ],
   "note": "Refuted: los in 'xyz' is a substring test."
  },
  {
   "property": "C94",
   "status": "partial",
   "theorems": [
    "C94_closed_refuted"
   ],
   "note": "Refuted: strict inequalities."
  },
  {
   "property": "C95",
   "status": "partial",
   "theorems": [
    "C95_centered_refuted"
   ],
   "note": "Refuted: an octant catalog is taken to be in [0, L]."
  },
  {
   "property": "C96",
   "status": "proved",
   "theorems": [
    "C96_total_auto",
    "C96_total_cross",
    "C96_twice"
   ],
   "note": "-"
  },
  {
   "property": "C97",
   "status": "proved",
   "theorems": [
    "C97_scale",
    "C97_zero",
    "C97_nan"
   ],
   "note": "-"
  },
  {
   "property": "C98",
   "status": "partial",
   "theorems": [
    "C98_natural_refuted"
   ],
   "note": "Refuted: -1/N."
  },
  {
   "property": "C99",
   "status": "partial",
   "theorems": [
    "C99_angular_refuted"
   ],
   "note": "Refuted: the chord is used as the radius of the base; nan above 60 degrees."
  },
  {
   "property": "C100",
   "status": "partial",
   "theorems": [
    "C100_orphans_refuted",
    "C100_orphans_ignored"
   ],
   "note": "refuted; old T_cmb/Omega_k/Omega_Lambda wins over the new alias"
  },
  {
   "property": "C101",
   "status": "partial",
   "theorems": [
    "C101_stale_N_ur_refuted"
   ],
   "note": "refuted; N_ur of the old cosmology is kept"
  },
  {
   "property": "C102",
   "status": "partial",
   "theorems": [
    "C102_ur_keyerror",
    "C102_ur_density_refuted"
   ],
   "note": "refuted; KeyError from args['N_ur']"
  },
  {
   "property": "C103",
   "status": "proved",
   "theorems": [
    "C103_init_sets",
    "C103_defaults",
    "C103_neutrinos",
    "C103_neutrinos_refused"
   ],
   "note": ""
  },
  {
   "property": "C104",
   "status": "partial",
   "theorems": [
    "C104_contradiction_refuted"
   ],
   "note": "refuted for T0_cmb with T_cmb"
  },
  {
   "property": "C105",
   "status": "partial",
   "theorems": [
    "C105_given_twice_refuted"
   ],
   "note": "refuted for omega_b together with the default Omega0_b, both of which reach CLASS as Omega_b and omega_b"
  },
  {
   "property": "C106",
   "status": "proved",
   "theorems": [
    "C106_match_cb",
    "C106_match_m",
    "C106_match_sigma8"
   ],
   "note": "derived quantities of CLASS are inputs"
  },
  {
   "property": "C107",
   "status": "partial",
   "theorems": [
    "C107_to_astropy_w0_refuted"
   ],
   "note": "refuted; w0 := wa"
  },
  {
   "property": "C108",
   "status": "proved",
   "theorems": [
    "C108_astropy_roundtrip"
   ],
   "note": "contract of astropy: attributes are the constructor arguments; N_ur is rescaled and not claimed"
  },
  {
   "property": "C109",
   "status": "partial",
   "theorems": [
    "C109_output_none_refuted"
   ],
   "note": "refuted; output=None"
  },
  {
   "property": "C110",
   "status": "partial",
   "theorems": [
    "C110_slash_columns_refuted"
   ],
   "note": ""
  },
  {
   "property": "C111",
   "status": "proved",
   "theorems": [
    "C111_metadata",
    "C111_metadata_error"
   ],
   "note": ""
  },
  {
   "property": "C112",
   "status": "partial",
   "theorems": [
    "C112_unsorted_types_refuted"
   ],
   "note": ""
  },
  {
   "property": "C113",
   "status": "partial",
   "theorems": [
    "C113_prefix_refuted"
   ],
   "note": ""
  },
  {
   "property": "C114",
   "status": "partial",
   "theorems": [
    "C114_header_refuted"
   ],
   "note": ""
  },
  {
   "property": "C115",
   "status": "partial",
   "theorems": [
    "C115_last_edge_refuted",
    "C115_automatic_refuted"
   ],
   "note": ""
  },
  {
   "property": "C116",
   "status": "partial",
   "theorems": [
    "C116_integer_bins",
    "C116_integer_bins_refuted"
   ],
   "note": ""
  },
  {
   "property": "C117",
   "status": "partial",
   "theorems": [
    "C117_empty_rank_refuted",
    "C117_automatic_iff"
   ],
   "note": ""
  },
  {
   "property": "C118",
   "status": "proved",
   "theorems": [
    "C118_first_run"
   ],
   "note": ""
  },
  {
   "property": "C119",
   "status": "proved",
   "theorems": [
    "C119_field_total",
    "C119_field_zero"
   ],
   "note": ""
  },
  {
   "property": "C120",
   "status": "partial",
   "theorems": [
    "C120_los_length_refuted",
    "C120_iff"
   ],
   "note": ""
  },
  {
   "property": "C121",
   "status": "partial",
   "theorems": [
    "C121_boost_refuted",
    "C121_oblique_refuted"
   ],
   "note": ""
  },
  {
   "property": "C122",
   "status": "partial",
   "theorems": [
    "C122_anisotropic_refuted"
   ],
   "note": ""
  },
  {
   "property": "C123",
   "status": "partial",
   "theorems": [
    "C123_data_outside_refuted"
   ],
   "note": ""
  },
  {
   "property": "C124",
   "status": "partial",
   "theorems": [
    "C124_joint_box_refuted",
    "C124_same_size_refuted"
   ],
   "note": ""
  },
  {
   "property": "C125",
   "status": "partial",
   "theorems": [
    "C125_no_poles_refuted"
   ],
   "note": ""
  },
  {
   "property": "C126",
   "status": "partial",
   "theorems": [
    "C126_straddling_line_refuted"
   ],
   "note": ""
  },
  {
   "property": "C127",
   "status": "partial",
   "theorems": [
    "C127_unterminated_line_refuted"
   ],
   "note": ""
  },
  {
   "property": "C128",
   "status": "partial",
   "theorems": [
    "C128_limit_refuted",
    "C128_zero_refuted"
   ],
   "note": ""
  },
  {
   "property": "C129",
   "status": "partial",
   "theorems": [
    "C129_skip_refuted"
   ],
   "note": ""
  },
  {
   "property": "C130",
   "status": "partial",
   "theorems": [
    "C130_double_blank_refuted",
    "C130_white_space_refuted",
    "C130_blank_first_refuted"
   ],
   "note": ""
  },
  {
   "property": "C131",
   "status": "partial",
   "theorems": [
    "C131_empty_array_refuted"
   ],
   "note": ""
  },
  {
   "property": "C132",
   "status": "partial",
   "theorems": [
    "C132_key_changes_value_refuted",
    "C132_key_unreadable_refuted"
   ],
   "note": ""
  },
  {
   "property": "C133",
   "status": "partial",
   "theorems": [
    "C133_tuple_refuted",
    "C133_integer_keys_refuted"
   ],
   "note": ""
  },
  {
   "property": "C134",
   "status": "partial",
   "theorems": [
    "C134_scalar_refuted",
    "C134_integers_refuted"
   ],
   "note": ""
  },
  {
   "property": "C135",
   "status": "partial",
   "theorems": [
    "C135_infinite_imaginary_refuted"
   ],
   "note": ""
  },
  {
   "property": "C136",
   "status": "partial",
   "theorems": [
    "C136_numpy_bool_refuted",
    "C136_complex64_refuted"
   ],
   "note": ""
  },
  {
   "property": "C137",
   "status": "partial",
   "theorems": [
    "C137_within_radius_refuted"
   ],
   "note": ""
  },
  {
   "property": "C138",
   "status": "partial",
   "theorems": [
    "C138_ranks_refuted"
   ],
   "note": ""
  },
  {
   "property": "C139",
   "status": "partial",
   "theorems": [
    "C139_grid_refuted"
   ],
   "note": ""
  },
  {
   "property": "C140",
   "status": "partial",
   "theorems": [
    "C140_empty_rank_refuted"
   ],
   "note": ""
  },
  {
   "property": "C141",
   "status": "partial",
   "theorems": [
    "C141_origin_refuted"
   ],
   "note": ""
  },
  {
   "property": "C142",
   "status": "partial",
   "theorems": [
    "C142_symmetric",
    "C142_periodic_refuted"
   ],
   "note": "true without periodic boundaries (C142_symmetric); refuted for a separation of exactly half the box with an inclined line of sight."
  },
  {
   "property": "C143",
   "status": "partial",
   "theorems": [
    "C143_wedges_by_own_mu_refuted"
   ],
   "note": ""
  },
  {
   "property": "C144",
   "status": "partial",
   "theorems": [
    "C144_correlation_all_separations_refuted"
   ],
   "note": ""
  },
  {
   "property": "C145",
   "status": "proved",
   "theorems": [
    "C145_correlation"
   ],
   "note": ""
  },
  {
   "property": "C146",
   "status": "partial",
   "theorems": [
    "C146_accepted_line_of_sight_refuted"
   ],
   "note": ""
  },
  {
   "property": "C147",
   "status": "partial",
   "theorems": [
    "C147_odd_multipoles_refuted"
   ],
   "note": ""
  },
  {
   "property": "C148",
   "status": "partial",
   "theorems": [
    "C148_projected_odd_axis_refuted"
   ],
   "note": ""
  },
  {
   "property": "C149",
   "status": "partial",
   "theorems": [
    "C149_projected_imaginary_refuted"
   ],
   "note": ""
  },
  {
   "property": "C150",
   "status": "partial",
   "theorems": [
    "C150_small",
    "C150_small_refuted"
   ],
   "note": "refuted; C150_small shows the failure for every such catalog."
  },
  {
   "property": "C151",
   "status": "partial",
   "theorems": [
    "C151_distinct_refuted"
   ],
   "note": ""
  },
  {
   "property": "C152",
   "status": "proved",
   "theorems": [
    "C152_legendre",
    "C152_addition",
    "C152_unit"
   ],
   "note": "C152_legendre characterises the Legendre polynomials of the addition theorem (and, at order 0, of the harmonics) by orthogonality on [-1, 1] and their value at 1."
  },
  {
   "property": "C153",
   "status": "proved",
   "theorems": [
    "C153_addition",
    "C153_triplets"
   ],
   "note": "Coq Reals; as C152; C153_triplets is C32 without the hypothesis on the harmonics."
  },
  {
   "property": "C154",
   "status": "proved",
   "theorems": [
    "C154_multipoles"
   ],
   "note": "Positions are the code's: cell coordinates plus the box centre plus half a cell (ConvSpec.position). Proved by the addition theorem of get_real_Ylm (C152), as real algebra over any kernel e(k, x), so it does not depend on details of the FFT."
  },
  {
   "property": "C155",
   "status": "partial",
   "theorems": [
    "C155_odd_compressed_refuted"
   ],
   "note": "Refuted: weights 2 double the stored mode, but its opposite contributes with the other sign."
  },
  {
   "property": "C156",
   "status": "partial",
   "theorems": [
    "C156_zero_mode_refuted"
   ],
   "note": "Refuted: the harmonics are evaluated at the direction (0, 0, 0), where those of even degree need not vanish."
  },
  {
   "property": "C157",
   "status": "partial",
   "theorems": [
    "C157_negative_refuted"
   ],
   "note": "Refuted: range(-ell, ell + 1) is empty and the sum over m stays zero."
  },
  {
   "property": "C158",
   "status": "proved",
   "theorems": [
    "C158_wedges",
    "C158_monopole",
    "C158_missing"
   ],
   "note": "The mean over a wedge is stated with primitives: it is (G b - G a)/(b - a) for every primitive G of the series, and one exists."
  },
  {
   "property": "C159",
   "status": "proved",
   "theorems": [
    "C159_equatorial",
    "C159_cartesian",
    "C159_mismatch"
   ],
   "note": "arctan2 and mod are modelled over the reals with their case distinctions; no signed zeros."
  },
  {
   "property": "C160",
   "status": "proved",
   "theorems": [
    "C160_sky",
    "C160_roundtrip",
    "C160_beyond"
   ],
   "note": "interp1d is modelled by its search and linear formula; the redshift grid is 0 and logspace(-8, log10(zmax), 1024)."
  },
  {
   "property": "C161",
   "status": "proved",
   "theorems": [
    "C161_projection",
    "C161_length_of_direction",
    "C161_twice"
   ],
   "note": ""
  },
  {
   "property": "C162",
   "status": "partial",
   "theorems": [
    "C162_shape_refuted",
    "C162_rows"
   ],
   "note": "Refuted: [:, None] puts the new axis second, so shapes (A, B, D) raise ValueError or mix rows, a single vector raises IndexError."
  },
  {
   "property": "C163",
   "status": "proved",
   "theorems": [
    "C163_stack",
    "C163_mismatch"
   ],
   "note": ""
  },
  {
   "property": "C164",
   "status": "proved",
   "theorems": [
    "C164_concatenate",
    "C164_ranks",
    "C164_missing"
   ],
   "note": ""
  },
  {
   "property": "C165",
   "status": "partial",
   "theorems": [
    "C165_names_refuted"
   ],
   "note": "Refuted: _from_columns(size, comm, **data) gets its parameter twice and raises TypeError."
  },
  {
   "property": "C166",
   "status": "proved",
   "theorems": [
    "C166_density",
    "C166_one_rank",
    "C166_bound"
   ],
   "note": "cKDTree and GridND are contracts; real arithmetic; a cubic box is asserted by the code."
  },
  {
   "property": "C167",
   "status": "partial",
   "theorems": [
    "C167_nearest_refuted"
   ],
   "note": "Refuted: tree.query(k=[8]) is the eighth nearest particle with the particle itself as first; eight evenly spaced particles have 1/64 of the stated value."
  },
  {
   "property": "C168",
   "status": "partial",
   "theorems": [
    "C168_ranks_refuted"
   ],
   "note": "Refuted: eight evenly spaced particles in a box of 100 have a positive density on one rank and zero on two (fewer than eight particles per rank, distance infinite)."
  },
  {
   "property": "C169",
   "status": "partial",
   "theorems": [
    "C169_margin_refuted"
   ],
   "note": "Refuted: meansep is (N / V) ** (1/3), the inverse of the mean separation."
  },
  {
   "property": "C170",
   "status": "proved",
   "theorems": [
    "C170_write",
    "C170_save"
   ],
   "note": "bigfile and dask.array.store are contracts; header None or one of the names found by BigFile; dataset prefix not modelled."
  },
  {
   "property": "C171",
   "status": "partial",
   "theorems": [
    "C171_header_refuted"
   ],
   "note": "Refuted: BigFile takes blocks called Header or header for headers and excludes them."
  },
  {
   "property": "C172",
   "status": "partial",
   "theorems": [
    "C172_column_attrs_refuted"
   ],
   "note": "Refuted: every access cat[col] makes a new ColumnAccessor with empty attrs, also the one in save()."
  },
  {
   "property": "C173",
   "status": "proved",
   "theorems": [
    "C173_attrs"
   ],
   "note": "The JSON codec is the one of C26."
  },
  {
   "property": "C174",
   "status": "partial",
   "theorems": [
    "C174_json_refuted"
   ],
   "note": "Refuted: BigFile decodes any string that begins with json://."
  },
  {
   "property": "C175",
   "status": "proved",
   "theorems": [
    "C175_array"
   ],
   "note": ""
  },
  {
   "property": "C176",
   "status": "partial",
   "theorems": [
    "C176_mismatch_refuted"
   ],
   "note": "Refuted: only rank 0 raises; the others wait in the allreduce of CatalogSource.__init__."
  },
  {
   "property": "C177",
   "status": "proved",
   "theorems": [
    "C177_subvolumes",
    "C177_total"
   ],
   "note": "GridND is a contract: one rank per position."
  },
  {
   "property": "C178",
   "status": "proved",
   "theorems": [
    "C178_spectrum"
   ],
   "note": "White noise is an argument; wave vectors are specified as the frequency congruent to the index in [-n/2, n/2)."
  },
  {
   "property": "C179",
   "status": "proved",
   "theorems": [
    "C179_displacement"
   ],
   "note": "In Fourier space for all modes; see C181 for real space."
  },
  {
   "property": "C180",
   "status": "proved",
   "theorems": [
    "C180_real",
    "C180_inverted"
   ],
   "note": "See C181 for the Nyquist frequency."
  },
  {
   "property": "C181",
   "status": "partial",
   "theorems": [
    "C181_nyquist_refuted"
   ],
   "note": "Refuted: at the Nyquist frequency k has one sign only, i k / k^2 delta is imaginary where it must be real, and c2r drops it: a field on a 1 x 1 x 2 mesh has no displacement although its overdensity does not vanish."
  },
  {
   "property": "C182",
   "status": "proved",
   "theorems": [
    "C182_linear"
   ],
   "note": "c2r is the real part of the sum of plane waves; orthogonality is proved."
  },
  {
   "property": "C183",
   "status": "proved",
   "theorems": [
    "C183_lognormal",
    "C183_expected"
   ],
   "note": "Densities are given per rank; cmean is the sum over ranks over the number of cells."
  },
  {
   "property": "C184",
   "status": "proved",
   "theorems": [
    "C184_particles"
   ],
   "note": "Real arithmetic: rounding to f4 may give BoxSize itself."
  },
  {
   "property": "C185",
   "status": "proved",
   "theorems": [
    "C185_filters",
    "C185_real",
    "C185_compose"
   ],
   "note": "Bounds are proved by the mean value theorem."
  },
  {
   "property": "C186",
   "status": "partial",
   "theorems": [
    "C186_radius_refuted"
   ],
   "note": "Refuted: sin(0)/0 - cos(0)/0 is nan; only k = 0 is repaired."
  },
  {
   "property": "C187",
   "status": "proved",
   "theorems": [
    "C187_survey",
    "C187_refused"
   ],
   "note": "over Reals; catalogs as the objects of all ranks; GridND (grid_ok) and Corrfunc (pairs in a bin are within its edges) by contract; averages of separations as sums (merging them is C17)."
  },
  {
   "property": "C188",
   "status": "proved",
   "theorems": [
    "C188_box"
   ],
   "note": "as C187; Corrfunc bins by the angle between directions only."
  },
  {
   "property": "C189",
   "status": "partial",
   "theorems": [
    "C189_columns_refuted"
   ],
   "note": "refuted: the angular mode writes the columns ra and dec of the catalogs given, replacing those of the same name."
  },
  {
   "property": "C190",
   "status": "proved",
   "theorems": [
    "C190_constant",
    "C190_ranges",
    "C190_missing"
   ],
   "note": "nan as None; the pair counts of wp's other columns are C17."
  },
  {
   "property": "C191",
   "status": "proved",
   "theorems": [
    "C191_legendre",
    "C191_monopole",
    "C191_quadrupole"
   ],
   "note": "C191_legendre: the weights of to_poles are the orthogonal polynomials on [-1, 1]."
  },
  {
   "property": "C192",
   "status": "partial",
   "theorems": [
    "C192_isotropic_refuted"
   ],
   "note": "refuted for every number of wedges: the Legendre polynomial is taken at the centre of the wedge."
  },
  {
   "property": "C193",
   "status": "proved",
   "theorems": [
    "C193_landy",
    "C193_swap",
    "C193_same",
    "C193_reuse",
    "C193_given",
    "C193_refused"
   ],
   "note": "pair counter and natural estimator (C36, C98) are arguments of the model; R1R2 of the user is the pair counter object."
  },
  {
   "property": "C194",
   "status": "partial",
   "theorems": [
    "C194_documented_refuted"
   ],
   "note": "refuted: randoms1 is used for both."
  },
  {
   "property": "C195",
   "status": "partial",
   "theorems": [
    "C195_randoms_refuted"
   ],
   "note": "refuted: randoms2 is ignored if randoms1 is not given in a periodic box."
  },
  {
   "property": "C196",
   "status": "partial",
   "theorems": [
    "C196_sphere_refuted"
   ],
   "note": "refuted: positions around zero are all thrown away or kept by their distance to a corner."
  },
  {
   "property": "C197",
   "status": "proved",
   "theorems": [
    "C197_tpcf",
    "C197_pairs"
   ],
   "note": "JSON as the identity (C26 is about the encoder); states as values."
  },
  {
   "property": "C198",
   "status": "partial",
   "theorems": [
    "C198_total_refuted"
   ],
   "note": "refuted: __setstate__ builds the BinnedStatistic from dims, edges and data only."
  },
  {
   "property": "C199",
   "status": "partial",
   "theorems": [
    "C199_sums_refuted"
   ],
   "note": "refuted: WedgeBinnedStatistic is built without fields_to_sum."
  },
  {
   "property": "C200",
   "status": "proved",
   "theorems": [
    "C200_growth",
    "C200_hubble",
    "C200_flat"
   ],
   "note": "over Reals with Coquelicot's derivatives; odeint by contract: it returns the values of a solution on an open interval around the times."
  },
  {
   "property": "C201",
   "status": "proved",
   "theorems": [
    "C201_eds"
   ],
   "note": "uniqueness of the solution is proved, not assumed."
  },
  {
   "property": "C202",
   "status": "partial",
   "theorems": [
    "C202_normalized_refuted"
   ],
   "note": "refuted: without a list the functions are divided by the value at the closest of 10240 grid points."
  },
  {
   "property": "C203",
   "status": "partial",
   "theorems": [
    "C203_later_refuted"
   ],
   "note": "refuted: numpy.interp is constant beyond the last time, so D1(2) = D1(1)."
  },
  {
   "property": "C204",
   "status": "proved",
   "theorems": [
    "C204_together",
    "C204_growth",
    "C204_solution"
   ],
   "note": "one wave number; solve_ivp itself is not modelled."
  },
  {
   "property": "C205",
   "status": "proved",
   "theorems": [
    "C205_pressure"
   ],
   "note": ""
  },
  {
   "property": "C206",
   "status": "partial",
   "theorems": [
    "C206_massless_refuted"
   ],
   "note": "refuted: m_ncdm[0] of a cosmology without massive neutrinos is an IndexError."
  },
  {
   "property": "C207",
   "status": "proved",
   "theorems": [
    "C207_cdm"
   ],
   "note": "theta and h_prime in the same units as hubble_function (1/Mpc, as CLASS gives them)."
  },
  {
   "property": "C208",
   "status": "partial",
   "theorems": [
    "C208_baryon_refuted"
   ],
   "note": "refuted: theta is added without the factor a / H0."
  },
  {
   "property": "C209",
   "status": "proved",
   "theorems": [
    "C209_sets",
    "C209_ok",
    "C209_sigma8"
   ],
   "note": "TophatVar and the spline are a function linear in the power on its grid."
  },
  {
   "property": "C210",
   "status": "partial",
   "theorems": [
    "C210_zero_refuted"
   ],
   "note": "refuted: after sigma8 = 0. the next assignment divides by zero."
  },
  {
   "property": "C211",
   "status": "proved",
   "theorems": [
    "C211_class"
   ],
   "note": "get_pklin positive."
  },
  {
   "property": "C212",
   "status": "partial",
   "theorems": [
    "C212_integers_refuted"
   ],
   "note": "refuted: zeros_like(k) of an integer array stores integers, powers below 1 become 0; HalofitPower has the same line."
  },
  {
   "property": "C213",
   "status": "proved",
   "theorems": [
    "C213_large_scales"
   ],
   "note": ""
  },
  {
   "property": "C214",
   "status": "proved",
   "theorems": [
    "C214_large_scales",
    "C214_range"
   ],
   "note": ""
  },
  {
   "property": "C215",
   "status": "partial",
   "theorems": [
    "C215_scalar_zero_refuted"
   ],
   "note": "refuted: the number 0. gives 1.0 whatever the redshift, an array D(z)."
  },
  {
   "property": "C216",
   "status": "partial",
   "theorems": [
    "C216_larger",
    "C216_beta_c_refuted"
   ],
   "note": "refuted: brackets around (x ** b2 - 1) are missing, and b2 is 0.395 * Omh2 ** -0.0266 for (0.395 * Omh2) ** -0.0266; C216_larger gives the sign of the error for all cosmologies with few baryons."
  },
  {
   "property": "C217",
   "status": "proved",
   "theorems": [
    "C217_gaussian"
   ],
   "note": ""
  },
  {
   "property": "C218",
   "status": "partial",
   "theorems": [
    "C218_correlation_refuted"
   ],
   "note": "refuted: FNLGalaxyPower has no sigma8 (documented)."
  },
  {
   "property": "C219",
   "status": "partial",
   "theorems": [
    "C219_amplitude_refuted"
   ],
   "note": "refuted: Pk ** 0.5 is used for the transfer function, so four times the power halves the correction."
  },
  {
   "property": "C220",
   "status": "proved",
   "theorems": [
    "C220_range",
    "C220_current"
   ],
   "note": "match(sigma8=) gives a cosmology with that sigma8 (C106)."
  },
  {
   "property": "C221",
   "status": "proved",
   "theorems": [
    "C221_current",
    "C221_low_k"
   ],
   "note": "the integrals are functions of the linear power."
  },
  {
   "property": "C222",
   "status": "proved",
   "theorems": [
    "C222_scales"
   ],
   "note": ""
  },
  {
   "property": "C223",
   "status": "partial",
   "theorems": [
    "C223_attrs_refuted"
   ],
   "note": "refuted: the attributes are copied when the object is made, HalofitPower replaces its own."
  },
  {
   "property": "C224",
   "status": "proved",
   "theorems": [
    "C224_open",
    "C224_read",
    "C224_bounds"
   ],
   "note": "files as bytes, default header; column precision 4 or 8 with auto or as given."
  },
  {
   "property": "C225",
   "status": "partial",
   "theorems": [
    "C225_big",
    "C225_gadget_2gb_refuted"
   ],
   "note": "refuted: sizes are read as signed i4, so the next position is negative (OSError)."
  },
  {
   "property": "C226",
   "status": "proved",
   "theorems": [
    "C226_default",
    "C226_number",
    "C226_name",
    "C226_error",
    "C226_missing"
   ],
   "note": "HDUs by name, presence of data and kind; fitsio is outside the model; names distinct for lookups by name."
  },
  {
   "property": "C227",
   "status": "partial",
   "theorems": [
    "C227_fits_image_first_refuted"
   ],
   "note": "refuted: the loop stops at the first HDU with data, an image is then refused (the comment says first Table HDU)."
  },
  {
   "property": "C228",
   "status": "partial",
   "theorems": [
    "C228_fits_named_refuted",
    "C228_iff"
   ],
   "note": "refuted: \"%d\" % ext with a string raises TypeError."
  },
  {
   "property": "C229",
   "status": "proved",
   "theorems": [
    "C229_read",
    "C229_precision"
   ],
   "note": ""
  },
  {
   "property": "C230",
   "status": "partial",
   "theorems": [
    "C230_str",
    "C230_str_columns_refuted"
   ],
   "note": "refuted: a str is iterated by characters, KeyError unless all are columns."
  },
  {
   "property": "C231",
   "status": "proved",
   "theorems": [
    "C231_attrs"
   ],
   "note": "galaxies as a function of halos, parameters and seed of the rank (halotools)."
  },
  {
   "property": "C232",
   "status": "proved",
   "theorems": [
    "C232_populate",
    "C232_repopulate",
    "C232_reproduce",
    "C232_invalid"
   ],
   "note": "attrs other than parameters and seed are outside the model."
  },
  {
   "property": "C233",
   "status": "partial",
   "theorems": [
    "C233_reused",
    "C233_model_reuse_refuted"
   ],
   "note": "refuted: the mock of the first catalog is kept in the model (hasattr(model, 'mock'))."
  },
  {
   "property": "C234",
   "status": "partial",
   "theorems": [
    "C234_failed_repopulate_refuted"
   ],
   "note": "refuted: the data are replaced before the number of galaxies is checked, attrs after."
  },
  {
   "property": "C235",
   "status": "partial",
   "theorems": [
    "C235_seed_none_refuted",
    "C235_given"
   ],
   "note": "refuted without a seed: each rank draws its own; proved if a seed is given."
  },
  {
   "property": "C236",
   "status": "partial",
   "theorems": [
    "C236_concentration_key_refuted",
    "C236_none_refuted",
    "C236_ignored"
   ],
   "note": "refuted: only None or not None matters, and that only for Zheng07."
  },
  {
   "property": "C237",
   "status": "proved",
   "theorems": [
    "C237_roundtrip",
    "C237_missing"
   ],
   "note": "numbers in attributes are integers; strings that start with json:// excluded (C238)."
  },
  {
   "property": "C238",
   "status": "partial",
   "theorems": [
    "C238_vector_refuted",
    "C238_string_refuted",
    "C238_prefix_refuted"
   ],
   "note": "refuted: numpy.squeeze makes vectors of one number 0-d and strings 0-d arrays; a string starting with json:// prevents opening."
  },
  {
   "property": "C239",
   "status": "partial",
   "theorems": [
    "C239_kwargs_refuted"
   ],
   "note": "refuted: attributes of the file overwrite keywords of the same name."
  },
  {
   "property": "C240",
   "status": "proved",
   "theorems": [
    "C240_real",
    "C240_complex"
   ],
   "note": "irfftn as an inverse of the transform of pmesh (contract fft_ok)."
  },
  {
   "property": "C241",
   "status": "partial",
   "theorems": [
    "C241_odd",
    "C241_odd_refuted"
   ],
   "note": "refuted: irfftn without a shape makes the last dimension even."
  },
  {
   "property": "C242",
   "status": "partial",
   "theorems": [
    "C242_kwargs_refuted"
   ],
   "note": "refuted: kwargs are never used."
  },
  {
   "property": "C243",
   "status": "partial",
   "theorems": [
    "C243_source",
    "C243_filters_refuted"
   ],
   "note": "refuted: preview uses to_field, so functions added by apply and compensation are missing; it is the field of the source."
  },
  {
   "property": "C244",
   "status": "proved",
   "theorems": [
    "C244_restore",
    "C244_other"
   ],
   "note": "over Reals; that painting is a convolution with the kernel and sampling is not derived; three dimensions as in the code."
  },
  {
   "property": "C245",
   "status": "proved",
   "theorems": [
    "C245_white",
    "C245_power"
   ],
   "note": "over Reals; the polynomial for pcs, found by a fit according to the code, is exact."
  },
  {
   "property": "C246",
   "status": "proved",
   "theorems": [
    "C246_slabs",
    "C246_cells",
    "C246_refused_axis",
    "C246_refused_dims",
    "C246_nonsingular"
   ],
   "note": "over the reals; the coordinate arrays are those of pmesh, of shape n along their axis and 1 along the others"
  },
  {
   "property": "C247",
   "status": "proved",
   "theorems": [
    "C247_set",
    "C247_shape"
   ],
   "note": "for arrays (data.dtype must exist); bool or complex variables are values like the others."
  },
  {
   "property": "C248",
   "status": "partial",
   "theorems": [
    "C248_refuted"
   ],
   "note": "after replacing a variable that had nan values by a finite one the cells stay masked."
  },
  {
   "property": "C249",
   "status": "proved",
   "theorems": [
    "C249_rename",
    "C249_unknown",
    "C249_taken",
    "C249_squeeze",
    "C249_no_squeeze"
   ],
   "note": ""
  },
  {
   "property": "C250",
   "status": "partial",
   "theorems": [
    "C250_refuted"
   ],
   "note": "_fields_to_sum keeps the old name, so a field that was summed is averaged after renaming."
  },
  {
   "property": "C251",
   "status": "proved",
   "theorems": [
    "C251_json",
    "C251_attrs",
    "C251_missing",
    "C251_given"
   ],
   "note": ""
  },
  {
   "property": "C252",
   "status": "partial",
   "theorems": [
    "C252_refuted",
    "C252_sum_refuted"
   ],
   "note": "attributes named dims, edges, data, coords or self give TypeError, one named fields_to_sum is taken as that argument and lost.  Also, the fields to sum themselves are not in the file (cf. C70)."
  },
  {
   "property": "C253",
   "status": "proved",
   "theorems": [
    "C253_one",
    "C253_two"
   ],
   "note": "float(), int() and the types are oracles; names without white space or '.real', and for one dimension without 'edges' or 'metadata'; at least one bin.  fuel is the number of lines of the loop for the first line of data."
  },
  {
   "property": "C254",
   "status": "partial",
   "theorems": [
    "C254_default_names_refuted"
   ],
   "note": "with edges before the data their comments are taken for the names, and only as many columns are read as there are names."
  },
  {
   "property": "C255",
   "status": "partial",
   "theorems": [
    "C255_false_refuted",
    "C255_text_refuted"
   ],
   "note": "bool('False') is True; only the second word is the value."
  },
  {
   "property": "C256",
   "status": "proved",
   "theorems": [
    "C256_hdf_columns",
    "C256_refused"
   ],
   "note": ""
  },
  {
   "property": "C257",
   "status": "partial",
   "theorems": [
    "C257_plain_dataset_refuted"
   ],
   "note": "the column is called f0 and read() looks for a field of that name, ValueError."
  },
  {
   "property": "C258",
   "status": "partial",
   "theorems": [
    "C258_header_refuted"
   ],
   "note": "with a single structured data set attrs is replaced by the attributes of that data set."
  },
  {
   "property": "C259",
   "status": "proved",
   "theorems": [
    "C259_selection",
    "C259_array",
    "C259_column",
    "C259_vector",
    "C259_dask",
    "C259_refused"
   ],
   "note": ""
  },
  {
   "property": "C260",
   "status": "partial",
   "theorems": [
    "C260_matrices_refuted"
   ],
   "note": "reshape((-1, shape[1])) drops the last axis; dask indexes with three slices, IndexError."
  },
  {
   "property": "C261",
   "status": "proved",
   "theorems": [
    "C261_modulus",
    "C261_few"
   ],
   "note": ""
  },
  {
   "property": "C262",
   "status": "partial",
   "theorems": [
    "C262_last_bin_refuted"
   ],
   "note": "mesh of 6 cells, default kmax: the last edge is sqrt 8 + (sqrt 8 - sqrt 6)/2 > 3, so the last bin also has the modes with modulus 3, which are not below kmax"
  },
  {
   "property": "C263",
   "status": "partial",
   "theorems": [
    "C263_merged_refuted"
   ],
   "note": "fundamental wave numbers 1, 1.0001, 1: the modes with modulus 1 and 1.0001 are in one bin"
  },
  {
   "property": "C264",
   "status": "proved",
   "theorems": [
    "C264_linear",
    "C264_nyquist",
    "C264_default"
   ],
   "note": ""
  },
  {
   "property": "C265",
   "status": "partial",
   "theorems": [
    "C265_long_box_refuted"
   ],
   "note": "box (1,1,100), mesh (4,4,400): all Nyquist frequencies are two bins, but there is only one edge since the smallest number of cells is divided by the largest side"
  },
  {
   "property": "C266",
   "status": "partial",
   "theorems": [
    "C266_kmin_refuted"
   ],
   "note": "with dk=0 the first edge is always 0"
  },
  {
   "property": "C267",
   "status": "proved",
   "theorems": [
    "C267_cast",
    "C267_refused",
    "C267_init",
    "C267_power"
   ],
   "note": ""
  },
  {
   "property": "C268",
   "status": "partial",
   "theorems": [
    "C268_shotnoise_refuted"
   ],
   "note": "each cast of a catalog makes a new mesh object, so the sources differ and the shot noise is 0"
  },
  {
   "property": "C269",
   "status": "proved",
   "theorems": [
    "C269_wedges",
    "C269_average",
    "C269_repeated"
   ],
   "note": ""
  },
  {
   "property": "C270",
   "status": "partial",
   "theorems": [
    "C270_single_bin_refuted"
   ],
   "note": "numpy.squeeze drops the dimension: IndexError in mode 1d, ValueError in mode 2d"
  },
  {
   "property": "C271",
   "status": "proved",
   "theorems": [
    "C271_saved"
   ],
   "note": ""
  },
  {
   "property": "C272",
   "status": "partial",
   "theorems": [
    "C272_poles_refuted"
   ],
   "note": "__setstate__ sets poles only if it is not None: AttributeError"
  },
  {
   "property": "C273",
   "status": "proved",
   "theorems": [
    "C273_linear",
    "C273_half"
   ],
   "note": ""
  },
  {
   "property": "C274",
   "status": "proved",
   "theorems": [
    "C274_round_trip",
    "C274_plane_wave"
   ],
   "note": "r2c is modelled as the sum with exp(-ikx)/Nmesh^3 and c2r as the plain sum over the stored half of the modes and their conjugates (pmesh's convention, trusted)."
  },
  {
   "property": "C275",
   "status": "proved",
   "theorems": [
    "C275_correlation",
    "C275_fluctuations"
   ],
   "note": "The binning of the separations is in the Pow and Uniq groups."
  },
  {
   "property": "C276",
   "status": "proved",
   "theorems": [
    "C276_power",
    "C276_plane_wave"
   ],
   "note": ""
  },
  {
   "property": "C277",
   "status": "proved",
   "theorems": [
    "C277_images",
    "C277_modes"
   ],
   "note": "The painting itself is in the Paint group (the two windows are arguments there); here the two painted meshes are arbitrary."
  },
  {
   "property": "C278",
   "status": "partial",
   "theorems": [
    "C278_nyquist_refuted"
   ],
   "note": "The phase factor exp(0.5j*kH) is not conjugate at modes that are their own opposites, so the imaginary part is dropped by c2r: at the Nyquist frequency only half of the wave is left (C278_nyquist_refuted, mesh of two cells)."
  },
  {
   "property": "C279",
   "status": "proved",
   "theorems": [
    "C279_continuity",
    "C279_mean",
    "C279_divisors"
   ],
   "note": "The line of sight in use is the one stored in attrs (for vectors that are not of unit length see C120); the later factor 1 + f los is C43/C121. C279_divisors rules out a division by zero at the mean, which total division would hide."
  },
  {
   "property": "C280",
   "status": "proved",
   "theorems": [
    "C280_plane_wave"
   ],
   "note": "Reading out the displacement at the particles is pmesh's."
  },
  {
   "property": "C281",
   "status": "proved",
   "theorems": [
    "C281_measured",
    "C281_unitary"
   ],
   "note": "Holds in all modes, also at the Nyquist frequency; painting and readout are not involved (LinearMesh is made in Fourier space)."
  },
  {
   "property": "C282",
   "status": "proved",
   "theorems": [
    "C282_mock"
   ],
   "note": "The density is taken on the mesh; a painted catalog differs by its window and shot noise."
  },
  {
   "property": "C283",
   "status": "proved",
   "theorems": [
    "C283_columns",
    "C283_class_column",
    "C283_own_column",
    "C283_no_column"
   ],
   "note": "Views (self.base) and copies are in Cat (C11, C48, C58-C60)."
  },
  {
   "property": "C284",
   "status": "partial",
   "theorems": [
    "C284_default_flag_refuted"
   ],
   "note": "A class that declares a default column over a base class's hard column: the name stays in _hardcolumns of the base.  save() then writes it."
  },
  {
   "property": "C285",
   "status": "partial",
   "theorems": [
    "C285_named_columns_unreadable",
    "C285_named_columns_refuted"
   ],
   "note": "get_hardcolumn and the default branch of __getitem__ call getattr(self, column name), not the decorated function; shown for all names and classes."
  },
  {
   "property": "C286",
   "status": "proved",
   "theorems": [
    "C286_to_mesh",
    "C286_made",
    "C286_refused"
   ],
   "note": "Numbers are integers in the model (only their equality is used); pmesh.window.methods is a parameter."
  },
  {
   "property": "C287",
   "status": "partial",
   "theorems": [
    "C287_missing_position",
    "C287_missing_error_refuted"
   ],
   "note": "weight and selection are checked, value and position are not, and give the KeyError of __getitem__; no mesh is made in either case (C287_missing_position)."
  },
  {
   "property": "C288",
   "status": "partial",
   "theorems": [
    "C288_lower_case",
    "C288_upper_case_refuted"
   ],
   "note": "CatalogMesh.__init__ keeps the case, the setter lowers it (\"lower to compare with compensation\"); in lower case both agree (C288_lower_case).  Witness: methods contain 'CIC', as the setter's comment implies."
  },
  {
   "property": "C289",
   "status": "proved",
   "theorems": [
    "C289_species_mesh",
    "C289_species_made",
    "C289_species_attrs"
   ],
   "note": "For meshes of single species and painting see C34, C68."
  },
  {
   "property": "C290",
   "status": "partial",
   "theorems": [
    "C290_dotted_names_refuted"
   ],
   "note": "Species 'sim.halos' and 'sim' where attrs of 'sim' have a key 'halos.BoxSize'."
  },
  {
   "property": "C291",
   "status": "partial",
   "theorems": [
    "C291_unknown_resampler_refuted"
   ],
   "note": "The mesh is made and fails when it is painted."
  },
  {
   "property": "C292",
   "status": "proved",
   "theorems": [
    "C292_weights",
    "C292_others",
    "C292_accepted"
   ],
   "note": "The columns are those of all ranks together; a P0 given replaces an existing FKPWeight (the new column is the one proved)."
  },
  {
   "property": "C293",
   "status": "proved",
   "theorems": [
    "C293_meta"
   ],
   "note": "`reads` fixes which columns the two meshes read; non-finite numbers are in C299; names in attrs that collide are C295."
  },
  {
   "property": "C294",
   "status": "partial",
   "theorems": [
    "C294_species_shotnoise_refuted"
   ],
   "note": "to_real_field removes the two entries."
  },
  {
   "property": "C295",
   "status": "partial",
   "theorems": [
    "C295_names_refuted"
   ],
   "note": "A data catalog whose attrs has N = 5 and norm = 2: data.N is 5 although there is one object, data.norm is 2 although the power is divided by another number."
  },
  {
   "property": "C296",
   "status": "proved",
   "theorems": [
    "C296_total",
    "C296_zero_mean"
   ],
   "note": "`conserves` is the contract of pmesh paint for the mesh in use (C34); proved of a painter in the example."
  },
  {
   "property": "C297",
   "status": "proved",
   "theorems": [
    "C297_refused",
    "C297_inputs",
    "C297_meshes",
    "C297_box"
   ],
   "note": "The smaller box need not be contained in the joint one: C124."
  },
  {
   "property": "C298",
   "status": "partial",
   "theorems": [
    "C298_joint_cells_refuted"
   ],
   "note": "recenter_box changes the meta-data, not pm: boxes of sides 2 and 4 with 4^3 cells give densities eight times too large for the first mesh."
  },
  {
   "property": "C299",
   "status": "partial",
   "theorems": [
    "C299_no_randoms_refuted"
   ],
   "note": "alpha is inf, 0 * inf is nan."
  },
  {
   "property": "C300",
   "status": "partial",
   "theorems": [
    "C300_compensated_refuted"
   ],
   "note": "source.compensated is set to False on the mesh that was passed, then the compensation is applied whenever the resampler has one."
  },
  {
   "property": "C301",
   "status": "proved",
   "theorems": [
    "C301_to_mesh"
   ],
   "note": "bbox is _define_bbox (C39)."
  },
  {
   "property": "C302",
   "status": "partial",
   "theorems": [
    "C302_center_refuted"
   ],
   "note": "CatalogMesh.__init__ copies the attributes of the catalog after recenter_box; BoxSize is set again, BoxCenter is not."
  },
  {
   "property": "C303",
   "status": "proved",
   "theorems": [
    "C303_groups",
    "C303_refused"
   ],
   "note": "Particle positions are in [0, L]; for periodic boxes the mean is fixed for groups smaller than half a box (`unwrapped`); every rank has particles."
  },
  {
   "property": "C304",
   "status": "proved",
   "theorems": [
    "C304_tables",
    "C304_refused"
   ],
   "note": "The numbers are exact; f4 in the source is not modelled."
  },
  {
   "property": "C305",
   "status": "proved",
   "theorems": [
    "C305_set"
   ],
   "note": "Columns set are Mass, Position, Velocity of the right shape (others are refused and change nothing) or names that are not hard columns."
  },
  {
   "property": "C306",
   "status": "partial",
   "theorems": [
    "C306_slice_refuted"
   ],
   "note": "All columns of a selection are fixed when it is made; for any radius that differs for two masses."
  },
  {
   "property": "C307",
   "status": "partial",
   "theorems": [
    "C307_mdef_refuted"
   ],
   "note": "halo_mass_key and halo_radius_key are fixed in __init__; mdef, Radius and Concentration follow attrs."
  },
  {
   "property": "C308",
   "status": "partial",
   "theorems": [
    "C308_names_refuted"
   ],
   "note": "attrs named data or comm collide with arguments of ArrayCatalog: TypeError."
  },
  {
   "property": "C309",
   "status": "proved",
   "theorems": [
    "C309_structure",
    "C309_shot_noise",
    "C309_nearest"
   ],
   "note": "Positions are mesh points; interlaced=False and no Value column.  Any window that is the same at every mesh point."
  },
  {
   "property": "C310",
   "status": "proved",
   "theorems": [
    "C310_correlation"
   ],
   "note": "The nearest-cell window (which is also CIC at mesh points)."
  },
  {
   "property": "C311",
   "status": "proved",
   "theorems": [
    "C311_cross"
   ],
   "note": "Any fixed second mesh, hence also one that is averaged independently."
  },
  {
   "property": "C312",
   "status": "partial",
   "theorems": [
    "C312_same_catalog_refuted"
   ],
   "note": "`first is second` compares the objects; for two equal meshes shotnoise is 0."
  },
  {
   "property": "C313",
   "status": "proved",
   "theorems": [
    "C313_layout",
    "C313_weights",
    "C313_moved"
   ],
   "note": "catalogs for which both paintings finish (see C15); weights and moves without interlacing."
  },
  {
   "property": "C314",
   "status": "proved",
   "theorems": [
    "C314_bound",
    "C314_lattice"
   ],
   "note": "as C309."
  },
  {
   "property": "C315",
   "status": "proved",
   "theorems": [
    "C315_slices"
   ],
   "note": "exact reals; the last axis even, because the weights of run count the last half-mode of an odd axis once (C316-C317 hypotheses say where this matters); kmin below the Nyquist wavenumber (otherwise there is no bin and numpy raises)."
  },
  {
   "property": "C316",
   "status": "proved",
   "theorems": [
    "C316_columns",
    "C316_moved"
   ],
   "note": "both sources given (one source is the case f = g)."
  },
  {
   "property": "C317",
   "status": "proved",
   "theorems": [
    "C317_variance"
   ],
   "note": "one source, last axis even."
  },
  {
   "property": "C318",
   "status": "proved",
   "theorems": [
    "C318_order"
   ],
   "note": "both axes even; the imaginary part of a cross power depends on which half of the modes is kept."
  },
  {
   "property": "C319",
   "status": "partial",
   "theorems": [
    "C319_one_axis_refuted"
   ],
   "note": "Number a stands for the python value (0), a number: len() raises TypeError."
  },
  {
   "property": "C320",
   "status": "partial",
   "theorems": [
    "C320_zero_mode_refuted"
   ],
   "note": "counterexample: a mesh of 4 x 1 x 1, one bin with the zero mode."
  },
  {
   "property": "C321",
   "status": "proved",
   "theorems": [
    "C321_shot_noise"
   ],
   "note": "as C309 with the whole mass in the nearest cell; bins above zero."
  },
  {
   "property": "C322",
   "status": "proved",
   "theorems": [
    "C322_computed",
    "C322_three",
    "C322_projected",
    "C322_convolved",
    "C322_histogram"
   ],
   "note": "JSON gives back dictionaries, lists and arrays as they were (C26). fields_to_sum of a convolved power is lost in the file (s_sum = [] in C322_convolved, cf. C271)."
  },
  {
   "property": "C323",
   "status": "partial",
   "theorems": [
    "C323_lists",
    "C323_three_refuted"
   ],
   "note": "the TypeError comes after the whole computation."
  },
  {
   "property": "C324",
   "status": "partial",
   "theorems": [
    "C324_lists",
    "C324_histogram_refuted"
   ],
   "note": "the TypeError comes after the whole computation."
  },
  {
   "property": "C325",
   "status": "partial",
   "theorems": [
    "C325_wedges",
    "C325_pkmu_refuted"
   ],
   "note": "C325_wedges also shows what is built for arrays."
  },
  {
   "property": "C326",
   "status": "partial",
   "theorems": [
    "C326_formats",
    "C326_format_refuted"
   ],
   "note": "load returns an object without poles and attrs, whatever the file."
  },
  {
   "property": "C327",
   "status": "proved",
   "theorems": [
    "C327_old",
    "C327_mixed"
   ],
   "note": "an old file is one with the keys edges, poles (structured array) and attrs."
  },
  {
   "property": "C328",
   "status": "proved",
   "theorems": [
    "C328_open",
    "C328_values"
   ],
   "note": "pandas' cutting of a line into fields is an argument; columns asked to be of text are outside the values."
  },
  {
   "property": "C329",
   "status": "partial",
   "theorems": [
    "C329_later_rows_refuted"
   ],
   "note": "a column of integers in the first ten rows with a float later raises ValueError when it is read."
  },
  {
   "property": "C330",
   "status": "partial",
   "theorems": [
    "C330_engine_refuted"
   ],
   "note": "with engine='python' dtype is not passed on: a file that says float32 gives integers."
  },
  {
   "property": "C331",
   "status": "partial",
   "theorems": [
    "C331_skipped_refuted"
   ],
   "note": "skiprows is dropped after the first block but the skipped lines beyond it are parsed, so a header of words raises ValueError on reading."
  },
  {
   "property": "C332",
   "status": "proved",
   "theorems": [
    "C332_old",
    "C332_mixed"
   ],
   "note": "astropy objects are their constructor arguments; the curvature is an argument"
  },
  {
   "property": "C333",
   "status": "partial",
   "theorems": [
    "C333_defaults_refuted"
   ],
   "note": "refuted: with H0 alone n_s, the gauge and the limits of the power spectrum are left to CLASS and Omega_b is the old default"
  },
  {
   "property": "C334",
   "status": "proved",
   "theorems": [
    "C334_exists",
    "C334_sets",
    "C334_neutrinos",
    "C334_refuses"
   ],
   "note": "names of two parameters that CLASS derives together are left to C103"
  },
  {
   "property": "C335",
   "status": "partial",
   "theorems": [
    "C335_conflict_refuted"
   ],
   "note": "refuted: h given together with an object replaces H0 of the object without an error"
  },
  {
   "property": "C336",
   "status": "proved",
   "theorems": [
    "C336_immutable"
   ],
   "note": "the engine is the parameters of the moment it is made"
  },
  {
   "property": "C337",
   "status": "partial",
   "theorems": [
    "C337_from_dict_refuted"
   ],
   "note": "refuted: from_dict keeps the caller's dictionary, so dict(c) and clone differ from the engine"
  },
  {
   "property": "C338",
   "status": "partial",
   "theorems": [
    "C338_break_refuted"
   ],
   "note": "refuted: with one group and two tasks nothing can happen after the group left in its first task, and the root still waits"
  },
  {
   "property": "C339",
   "status": "proved",
   "theorems": [
    "C339_waits",
    "C339_others"
   ],
   "note": "the ranks that left wait at the barrier of __exit__"
  },
  {
   "property": "C340",
   "status": "proved",
   "theorems": [
    "C340_resampled",
    "C340_preview",
    "C340_views"
   ],
   "note": "resample commutes with r2c (contract); one number Nmesh for all axes"
  },
  {
   "property": "C341",
   "status": "partial",
   "theorems": [
    "C341_nmesh_refuted"
   ],
   "note": "refuted: attrs are copied from the source, so Nmesh is that of the source"
  },
  {
   "property": "C342",
   "status": "partial",
   "theorems": [
    "C342_normalize_refuted"
   ],
   "note": "refuted: the keywords are not passed on to the mesh viewed"
  },
  {
   "property": "C343",
   "status": "proved",
   "theorems": [
    "C343_made",
    "C343_refused",
    "C343_comm"
   ],
   "note": "full"
  },
  {
   "property": "C344",
   "status": "partial",
   "theorems": [
    "C344_mismatch_refuted"
   ],
   "note": "refuted: when only one of the catalogs has BoxSize it is not compared with the keyword"
  },
  {
   "property": "C345",
   "status": "partial",
   "theorems": [
    "C345_number_refuted"
   ],
   "note": "refuted: TypeError"
  },
  {
   "property": "C346",
   "status": "partial",
   "theorems": [
    "C346_either_refuted"
   ],
   "note": "refuted: only the first catalog is asked, ValueError"
  },
  {
   "property": "C347",
   "status": "proved",
   "theorems": [
    "C347_made",
    "C347_mock"
   ],
   "note": "arguments are the same on all ranks"
  },
  {
   "property": "C348",
   "status": "partial",
   "theorems": [
    "C348_cosmo_refuted"
   ],
   "note": "refuted: with Plin.attrs the keyword cosmo is not recorded"
  },
  {
   "property": "C349",
   "status": "proved",
   "theorems": [
    "C349_linear"
   ],
   "note": "the Gaussian field is a function of spectrum, seeds and switches"
  },
  {
   "property": "C350",
   "status": "partial",
   "theorems": [
    "C350_spectrum_refuted"
   ],
   "note": "refuted: the spectrum is evaluated when the field is made, its attrs are copied when the mesh is made"
  },
  {
   "property": "C351",
   "status": "proved",
   "theorems": [
    "C351_natural",
    "C351_angular",
    "C351_randoms",
    "C351_estimate"
   ],
   "note": "pair counters and the natural estimator are functions of the objects"
  },
  {
   "property": "C352",
   "status": "partial",
   "theorems": [
    "C352_again_refuted"
   ],
   "note": "refuted: run() leaves a BinnedStatistic in R1R2, which has no attribute pairs"
  },
  {
   "property": "C353",
   "status": "partial",
   "theorems": [
    "C353_angular_refuted"
   ],
   "note": "refuted: KeyError, attrs of the catalog are used"
  },
  {
   "property": "C354",
   "status": "partial",
   "theorems": [
    "C354_same_refuted"
   ],
   "note": "refuted: in angular mode the selected catalogs are two objects, so the normalisation is that of a cross-correlation"
  },
  {
   "property": "C355",
   "status": "proved",
   "theorems": [
    "C355_pairs",
    "C355_pairs_refused",
    "C355_comm",
    "C355_triples"
   ],
   "note": ""
  },
  {
   "property": "C356",
   "status": "proved",
   "theorems": [
    "C356_made",
    "C356_refused"
   ],
   "note": ""
  },
  {
   "property": "C357",
   "status": "proved",
   "theorems": [
    "C357_made",
    "C357_refused",
    "C357_source"
   ],
   "note": ""
  },
  {
   "property": "C358",
   "status": "partial",
   "theorems": [
    "C358_keyword_refuted"
   ],
   "note": "Refuted: attrs['BoxSize'] of the source silently replaces the keyword."
  },
  {
   "property": "C359",
   "status": "partial",
   "theorems": [
    "C359_source_refuted"
   ],
   "note": "Refuted: a column 'origind' set by the user is overwritten and deleted; a hard-coded one makes the object raise ValueError at the end and stays overridden; and when finding the groups fails, the column 'origind' stays in the source."
  },
  {
   "property": "C360",
   "status": "proved",
   "theorems": [
    "C360_scott",
    "C360_bins",
    "C360_ranks"
   ],
   "note": ""
  },
  {
   "property": "C361",
   "status": "partial",
   "theorems": [
    "C361_same",
    "C361_width_refuted"
   ],
   "note": "Refuted: objects of equal redshift z get the one bin from z to z, which holds nothing and has no volume (C361_same)."
  },
  {
   "property": "C362",
   "status": "proved",
   "theorems": [
    "C362_sequence",
    "C362_others"
   ],
   "note": ""
  },
  {
   "property": "C363",
   "status": "partial",
   "theorems": [
    "C363_iterable_refuted"
   ],
   "note": "Refuted: generators, iterators and sets give TypeError on the root (and so end the run), and a dictionary with the keys 0, 1, ... hands out its values instead of its keys."
  },
  {
   "property": "C364",
   "status": "proved",
   "theorems": [
    "C364_initial"
   ],
   "note": "The exact solution for D1 is linear in ln a when the pull of matter is neglected; the initial D2, F2 solve the second order equation with that D1 exactly. Over Reals."
  },
  {
   "property": "C365",
   "status": "partial",
   "theorems": [
    "C365_start",
    "C365_positive_refuted"
   ],
   "note": "The default start 1e-7 is before a_H = 5.2e-5, so D1 starts with ln(a0/a_H) < 0. C365_start: for every solver that returns the initial values first, with a positive value at a_normalize, Gp at the start is negative."
  },
  {
   "property": "C366",
   "status": "proved",
   "theorems": [
    "C366_delegates",
    "C366_members"
   ],
   "note": "The classes of classylss are arbitrary sets of names. Properties that raise AttributeError fall back to __getattr__ as in Python."
  },
  {
   "property": "C367",
   "status": "partial",
   "theorems": [
    "C367_immutable_refuted",
    "C367_engine"
   ],
   "note": "Names of the interfaces are no names of their members: c.Spectra = d.Spectra is accepted and changes c.sigma8. C367_engine: after c.engine = d.engine every name gives the value of d, for all sets of names."
  },
  {
   "property": "C368",
   "status": "proved",
   "theorems": [
    "C368_values",
    "C368_element"
   ],
   "note": "C368_element states it element by element for strictly sorted s; C368_values for sorted s."
  },
  {
   "property": "C369",
   "status": "partial",
   "theorems": [
    "C369_out",
    "C369_out_refuted"
   ],
   "note": "C369_out: it does exactly when o already equals arr at all elements that are not replaced."
  }
 ]
}