{
 "claims": [
  {
   "property": "C01",
   "status": "proved",
   "theorems": [
    "C01_product_is_sequential",
    "C01_transfer_matrix_is_sequential"
   ],
   "note": "exact arithmetic; product written out and transferMatrix()"
  },
  {
   "property": "C02",
   "status": "proved",
   "theorems": [
    "C02_product_associative"
   ],
   "note": "exact arithmetic"
  },
  {
   "property": "C03",
   "status": "proved",
   "theorems": [
    "C03_constructors",
    "C03_determinant",
    "C03_products"
   ],
   "note": "exact arithmetic"
  },
  {
   "property": "C04",
   "status": "proved",
   "theorems": [
    "C04_accepts_iff_consistent",
    "C04_which_exception",
    "C04_stores_arguments"
   ],
   "note": "acceptance in exact arithmetic for finite entries; storage and checks for any number type including IEEE doubles"
  },
  {
   "property": "C05",
   "status": "partial",
   "theorems": [
    "C05_attributes_in_step",
    "C05_attributes_are_product",
    "C05_empty_refuted"
   ],
   "note": "REFUTED for a group that becomes empty (C05_empty_refuted); proved for every history that leaves elements, bit-exactly when all operations succeed and in exact arithmetic with failures"
  },
  {
   "property": "C06",
   "status": "partial",
   "theorems": [
    "C06_neighbours_match",
    "C06_slice_refuted"
   ],
   "note": "REFUTED when a slice assignment raises (C06_slice_refuted); proved for all other histories, failures included"
  },
  {
   "property": "C07",
   "status": "partial",
   "theorems": [
    "C07_append_safe",
    "C07_append_mismatch_safe",
    "C07_pop_out_of_range_safe",
    "C07_insert_unbuildable_safe",
    "C07_pop_refuted",
    "C07_insert_refuted"
   ],
   "note": "REFUTED for pop and insert (C07_pop_refuted, C07_insert_refuted); proved for append, out-of-range pop and unbuildable insertions"
  },
  {
   "property": "C08",
   "status": "proved",
   "theorems": [
    "C08_transfer_up_to",
    "C08_objective_raises"
   ],
   "note": "paths of spaces, thin elements, thick lenses and slabs, nested; an Objective cannot be cut (C08_objective_raises), which the property excludes"
  },
  {
   "property": "C09",
   "status": "proved",
   "theorems": [
    "C09_thick_lens_is_product",
    "C09_singlet_is_thick_lens",
    "C09_slab_is_flat_thick_lens"
   ],
   "note": "all non-zero indices, radii possibly infinite"
  },
  {
   "property": "C10",
   "status": "proved",
   "theorems": [
    "C10_trace_agrees_with_transfer_matrix",
    "C10_given"
   ],
   "note": "nested groups of linear elements"
  },
  {
   "property": "C11",
   "status": "proved",
   "theorems": [
    "C11_starts_with_the_ray",
    "C11_positions"
   ],
   "note": ""
  },
  {
   "property": "C12",
   "status": "partial",
   "theorems": [
    "C12_blocked_iff_misses_an_entrance",
    "C12_exit_refuted",
    "C12_each"
   ],
   "note": "REFUTED for the documented check at the exit of a finite-length element (C12_exit_refuted); blocked iff some entrance is missed is proved for any number type"
  },
  {
   "property": "C13",
   "status": "proved",
   "theorems": [
    "C13_blocked_stays_blocked",
    "C13_blocked_ray_unchanged",
    "C13_bigger_apertures"
   ],
   "note": "linear elements; an Axicon moves blocked rays, see C54"
  },
  {
   "property": "C14",
   "status": "proved",
   "theorems": [
    "C14_convex",
    "C14_symmetric"
   ],
   "note": ""
  },
  {
   "property": "C15",
   "status": "partial",
   "theorems": [
    "C15_other_rays_untouched",
    "C15_unblocked_ray_untouched",
    "C15_refuted"
   ],
   "note": "REFUTED: trace sets isBlocked on the caller's ray (C15_refuted); proved that nothing else changes"
  },
  {
   "property": "C16",
   "status": "partial",
   "theorems": [
    "C16_first_trace",
    "C16_history_partial",
    "C16_refuted",
    "C16_moved_ray_refuted",
    "C16_position_refuted"
   ],
   "note": "REFUTED: after append an equal ray gets the old trace; a ray object moved by the user gets its old trace; a ray at another position gets the trace of the first; proved: the first trace through any path of distinct unused groups is right for any numbers, and so is every trace of any history of new rays through paths without inner groups (no axicon), values kept to the end"
  },
  {
   "property": "C17",
   "status": "partial",
   "theorems": [
    "C17_nested_history_partial",
    "C17_group_twice_refuted",
    "C17_blocked_ray_revived_refuted",
    "C17_inner_trace_refuted"
   ],
   "note": "REFUTED: the same group twice gives z=10 instead of 20; a blocked ray leaves an inner group unblocked; an element behind an inner group blocks the ray in the inner group's stored trace; proved for nested groups, each object used once, for histories of new rays none of which is blocked, in exact arithmetic"
  },
  {
   "property": "C18",
   "status": "proved",
   "theorems": [
    "C18_many_through"
   ],
   "note": "any number type; heap of ray objects, duplicates and progress reports included"
  },
  {
   "property": "C19",
   "status": "partial",
   "theorems": [
    "C19_parallel_same_rays",
    "C19_order_refuted"
   ],
   "note": "REFUTED for the order of the rays with two or more processes (C19_order_refuted); same rays for every schedule and process count, same order with one process, proved"
  },
  {
   "property": "C20",
   "status": "partial",
   "theorems": [
    "C20_invariant_conserved",
    "C20_glass_refuted",
    "C20_clipped_refuted"
   ],
   "note": "REFUTED for paths that start in glass and for single elements with an aperture (C20_glass_refuted, C20_clipped_refuted); proved for every path in front index 1, or past the first optical action, at every depth"
  },
  {
   "property": "C21",
   "status": "proved",
   "theorems": [
    "C21_focal_points",
    "C21_no_power_no_focus"
   ],
   "note": "elements with |C| > 1e-5, which is the library's own test"
  },
  {
   "property": "C22",
   "status": "proved",
   "theorems": [
    "C22_principal_planes"
   ],
   "note": "any indices on the two sides"
  },
  {
   "property": "C23",
   "status": "partial",
   "theorems": [
    "C23_focal_lengths_from_vertices",
    "C23_flip_exchanges",
    "C23_thick_lens_refuted"
   ],
   "note": "REFUTED for the exchange when a ThickLens is flipped (C23_thick_lens_refuted); lengths from the vertices proved for every element, exchange proved for elements whose pieces keep their vertices (singlets, doublets, thin lenses)"
  },
  {
   "property": "C24",
   "status": "proved",
   "theorems": [
    "C24_forward_conjugate",
    "C24_no_image"
   ],
   "note": "including that D = 0 means there is no image"
  },
  {
   "property": "C25",
   "status": "partial",
   "theorems": [
    "C25_backward_conjugate",
    "C25_glass_refuted"
   ],
   "note": "REFUTED when the front index is not 1 (C25_glass_refuted); proved for front index 1 and A <> 0"
  },
  {
   "property": "C26",
   "status": "proved",
   "theorems": [
    "C26_intermediate_conjugates",
    "C26_every_part"
   ],
   "note": "soundness, no duplicates within the library's tolerance, and completeness up to that tolerance"
  },
  {
   "property": "C27",
   "status": "partial",
   "theorems": [
    "C27_flip_twice",
    "C27_flip_twice_single",
    "C27_flip_twice_flat",
    "C27_nested_refuted"
   ],
   "note": "REFUTED for nested groups of generic matrices in glass (C27_nested_refuted); proved for every single element, every group without nested groups, and every nesting of elements whose flip is a mirror image"
  },
  {
   "property": "C28",
   "status": "partial",
   "theorems": [
    "C28_flip_is_backwards",
    "C28_matrix_refuted",
    "C28_mirror_refuted"
   ],
   "note": "REFUTED for Matrix with A <> D and for CurvedMirror (C28_matrix_refuted, C28_mirror_refuted); proved for everything else"
  },
  {
   "property": "C29",
   "status": "partial",
   "theorems": [
    "C29_to_focus",
    "C29_from_focus_to_focus",
    "C29_vertex_refuted",
    "C29_from_vertex_refuted",
    "C29_glass_refuted",
    "C29_to_conjugate",
    "C29_to_conjugate_none"
   ],
   "note": "REFUTED when the last vertex is not the end of the element, in glass, and without vertices (C29_*_refuted); proved otherwise"
  },
  {
   "property": "C30",
   "status": "proved",
   "theorems": [
    "C30_system2f",
    "C30_system4f",
    "C30_zero_raises"
   ],
   "note": ""
  },
  {
   "property": "C31",
   "status": "partial",
   "theorems": [
    "C31_objective",
    "C31_magnification_refuted",
    "C31_magnification_never_callable"
   ],
   "note": "REFUTED for the inherited magnification() call (C31_magnification_refuted); geometry and double flip proved"
  },
  {
   "property": "C32",
   "status": "partial",
   "theorems": [
    "C32_stop_partial",
    "C32_stop_limits_partial",
    "C32_probe_blocked_partial",
    "C32_probe_refuted",
    "C32_image_plane_refuted"
   ],
   "note": "REFUTED when the probe ray (0, 0.1) is itself lost (the aperture losing it is returned although a later one is tighter) and when the only aperture is conjugate to the object (Stop(0, inf)); proved in exact arithmetic when the probe gets through: the stop maximises height/diameter and, for thin apertures, decides alone which on-axis rays pass"
  },
  {
   "property": "C33",
   "status": "proved",
   "theorems": [
    "C33_chief_ray",
    "C33_marginal_rays",
    "C33_axial_ray"
   ],
   "note": "exact arithmetic; both rays are None exactly when |B| < 1e-5"
  },
  {
   "property": "C34",
   "status": "partial",
   "theorems": [
    "C34_axial_ray_partial",
    "C34_angle_limited_refuted",
    "C34_rounding_refuted"
   ],
   "note": "REFUTED for apertures limited in angle and, on doubles, by rounding ([Space(7), Aperture(29)]); proved in exact arithmetic for thin apertures without angle limit when the probe gets through"
  },
  {
   "property": "C35",
   "status": "partial",
   "theorems": [
    "C35_telecentric",
    "C35_diaphragm",
    "C35_entrance_pupil_partial",
    "C35_glass_refuted"
   ],
   "note": "REFUTED when the path starts in glass (ValueError); proved for paths starting in air; the pupil is at infinity exactly when all chief rays are parallel to the axis"
  },
  {
   "property": "C36",
   "status": "partial",
   "theorems": [
    "C36_search_partial",
    "C36_no_search_partial",
    "C36_hangs_refuted",
    "C36_raises_refuted",
    "C36_raises_near_image"
   ],
   "note": "REFUTED: [Aperture(5e-5), Space(10), Aperture(10)] never returns and [Space(1.5), Lens(1), Space(3), Aperture(10)] raises TypeError, both on doubles; proved: for every well-formed path in exact arithmetic the four calls return unless the field ends below 3.75e-5 (then none returns) or the stop is imaged on the object (TypeError)"
  },
  {
   "property": "C37",
   "status": "proved",
   "theorems": [
    "C37_transmitted",
    "C37_maximal",
    "C37_returned",
    "C37_infinite",
    "C37_large_field_refuted"
   ],
   "note": "transmitted: any arithmetic including doubles; maximal within 2e-6: exact arithmetic, fields in [3.75e-5, 7463); larger finite fields are reported infinite (C37_large_field_refuted)"
  },
  {
   "property": "C38",
   "status": "partial",
   "theorems": [
    "C38_field_stop_partial",
    "C38_blocks_partial",
    "C38_thick_refuted"
   ],
   "note": "REFUTED for thick limited elements (position kept, diameter of the previous element); proved when limited elements are thin"
  },
  {
   "property": "C39",
   "status": "partial",
   "theorems": [
    "C39_lagrange_partial",
    "C39_glass_refuted",
    "C39_unlimited",
    "C39_front_stop"
   ],
   "note": "REFUTED for a path starting in glass (index left out); proved for paths starting in air"
  },
  {
   "property": "C40",
   "status": "partial",
   "theorems": [
    "C40_subPath_partial",
    "C40_backwards_partial",
    "C40_glass_refuted",
    "C40_backwards_refuted",
    "C40_boundary_refuted"
   ],
   "note": "REFUTED for a cut in glass, for elements that are not their own mirror image when backwards=True, and on boundaries; proved for cuts in air"
  },
  {
   "property": "C41",
   "status": "proved",
   "theorems": [
    "C41_beams_compose"
   ],
   "note": "exact arithmetic, positive indices; through the group's matrix, through the elements' matrices in turn and by tracing"
  },
  {
   "property": "C42",
   "status": "proved",
   "theorems": [
    "C42_stays_finite"
   ],
   "note": "exact arithmetic, positive indices, nested groups"
  },
  {
   "property": "C43",
   "status": "partial",
   "theorems": [
    "C43_reports_w_and_R",
    "C43_waist",
    "C43_spreads_from_waist",
    "C43_waist_refuted"
   ],
   "note": "REFUTED for wo when n is not 1 (C43_waist_refuted): wo is sqrt(n) times w; w and R round trip, Rayleigh range and w(z) proved for every n > 0"
  },
  {
   "property": "C44",
   "status": "partial",
   "theorems": [
    "C44_clipping_permanent",
    "C44_index_tracked",
    "C44_index_refuted"
   ],
   "note": "REFUTED for a path reduced to a zero-length Space in glass, whose front index is 1 (C44_index_refuted); clipping proved for any number type, index tracking proved for all index-matched chains entered with the index of the first element"
  },
  {
   "property": "C45",
   "status": "partial",
   "theorems": [
    "C45_modes",
    "C45_glass_refuted"
   ],
   "note": "REFUTED for sending the mode of a glass-filled cavity round the cavity (C45_glass_refuted): modes carry index 1; fixed points, completeness and at most one finite mode proved for |C| > 1e-5"
  },
  {
   "property": "C46",
   "status": "partial",
   "theorems": [
    "C46_stability_partial",
    "C46_refuted"
   ],
   "note": "REFUTED for stable cavities with |C| <= 1e-5 (C46_refuted); equivalence proved for |C| > 1e-5"
  },
  {
   "property": "C47",
   "status": "partial",
   "theorems": [
    "C47_elements",
    "C47_trace_partial",
    "C47_append_after",
    "C47_matrix_refuted",
    "C47_flip_refuted"
   ],
   "note": "REFUTED: the matrix and modes stay those of the forward pass (C47_matrix_refuted) and elements are not flipped (C47_flip_refuted); the element list, tracing through symmetric elements and the state after a later append are proved"
  },
  {
   "property": "C48",
   "status": "partial",
   "theorems": [
    "C48_statistics_current",
    "C48_load_refuted",
    "C48_failed_query_refuted"
   ],
   "note": "REFUTED when rays are loaded after a query (C48_load_refuted) and when a query that raised is asked again (C48_failed_query_refuted: it answers None); proved for every history without a load after a query, repeated queries included"
  },
  {
   "property": "C49",
   "status": "partial",
   "theorems": [
    "C49_plain_loop_partial",
    "C49_warmed_loop_partial",
    "C49_group_loop_partial",
    "C49_query_refuted",
    "C49_nested_refuted",
    "C49_membership_refuted",
    "C49_group_refuted",
    "C49_membership"
   ],
   "note": "REFUTED for bodies that query the object, loop over it or test membership (C49_*_refuted, the last one never ends); proved for bodies that leave the object alone and for queries once both value lists are cached"
  },
  {
   "property": "C50",
   "status": "proved",
   "theorems": [
    "C50_random_stable",
    "C50_random_iteration",
    "C50_random_bounded"
   ],
   "note": "stability and indices for any number type, ranges in exact arithmetic"
  },
  {
   "property": "C51",
   "status": "partial",
   "theorems": [
    "C51_fan",
    "C51_fan_rejects",
    "C51_fanGroup",
    "C51_UniformRays",
    "C51_ObjectRays",
    "C51_LampRays",
    "C51_fan_refuted",
    "C51_one_height_refuted",
    "C51_one_angle_refuted"
   ],
   "note": "REFUTED in floating point (C51_fan_refuted) and for one height or one angle (C51_one_*_refuted); proved in exact arithmetic for at least two heights and angles"
  },
  {
   "property": "C52",
   "status": "partial",
   "theorems": [
    "C52_sequence",
    "C52_non_ray_rejected",
    "C52_sequence_traced",
    "C52_oneshot_parallel",
    "C52_oneshot_all_lost",
    "C52_generator_refuted"
   ],
   "note": "REFUTED for one-shot iterators (C52_generator_refuted; C52_oneshot_all_lost says all of them are lost); proved for sequences, and for one-shot iterators in the parallel version"
  },
  {
   "property": "C53",
   "status": "proved",
   "theorems": [
    "C53_along"
   ],
   "note": "exact arithmetic; at a z shared by several rays the first of them is taken"
  },
  {
   "property": "C54",
   "status": "partial",
   "theorems": [
    "C54_focal_line",
    "C54_blocked_refuted"
   ],
   "note": "REFUTED for blocked rays, which are bent (C54_blocked_refuted); focal line proved"
  },
  {
   "property": "C55",
   "status": "partial",
   "theorems": [
    "C55_gets_partial",
    "C55_contains_partial",
    "C55_alone_partial",
    "C55_del",
    "C55_kwargs_refuted",
    "C55_lost_update_refuted",
    "C55_old_value_refuted",
    "C55_reset_refuted",
    "C55_delete_refuted",
    "C55_int_key_refuted",
    "C55_contains_refuted"
   ],
   "note": "REFUTED in seven ways (C55_..._refuted: keyword arguments, lost updates, old values back, undone resets, del, integer keys, stale 'in'); proved for one object, and for any number of objects when an object stores only while it is up to date"
  },
  {
   "property": "C56",
   "status": "partial",
   "theorems": [
    "C56_crash_partial",
    "C56_crash_in_save_refuted",
    "C56_crash_in_get_refuted",
    "C56_crash_in_new_refuted",
    "C56_bad_value_refuted"
   ],
   "note": "REFUTED (C56_..._refuted): a crash in a save, in a read or while the file is created, and a value JSON refuses, lose everything; proved: old, new or empty for operations of up-to-date objects, never a mixture"
  },
  {
   "property": "C57",
   "status": "partial",
   "theorems": [
    "C57_index_partial",
    "C57_out_of_range",
    "C57_complex_refuted",
    "C57_infrared_refuted",
    "C57_below_one_refuted"
   ],
   "note": "REFUTED near and beyond the poles of the Sellmeier formulas (C57_complex_refuted for every such glass); proved from 0.28 to 7 microns for every material and on the whole accepted range for polynomial ones; outside the range ValueError"
  },
  {
   "property": "C58",
   "status": "proved",
   "theorems": [
    "C58_found",
    "C58_not_found",
    "C58_class_name_raises"
   ],
   "note": "exact characterisation; the class names themselves (N_BK7) are not printed names and raise, C58_class_name_raises"
  },
  {
   "property": "C59",
   "status": "partial",
   "theorems": [
    "C59_lens",
    "C59_lens_not_closed",
    "C59_no_glass",
    "C59_air_spaced_refuted",
    "C59_diameter_refuted",
    "C59_reader_refuted"
   ],
   "note": "REFUTED for air-spaced lenses (only the first is kept), DIAM 0, missing UNIT, wavelengths of 0.55 only; proved for every closed or open lens with sound surfaces at wavelengths from 0.28 to 7 microns"
  },
  {
   "property": "C60",
   "status": "partial",
   "theorems": [
    "C60_setitem",
    "C60_setslice",
    "C60_negative_index_refuted",
    "C60_negative_slice_refuted"
   ],
   "note": "REFUTED for negative indices (C60_*_refuted); proved for non-negative in-range indices and slices"
  },
  {
   "property": "C61",
   "status": "partial",
   "theorems": [
    "C61_catalogue_mirrored",
    "C61_slab_mirrored",
    "C61_thick_lens_unchanged",
    "C61_thick_lens_refuted",
    "C61_compound_lens_refuted",
    "C61_interface_refuted"
   ],
   "note": "REFUTED for ThickLens, CompoundLens and DielectricInterface (C61_*_refuted); proved for catalogue singlets and doublets and for slabs"
  },
  {
   "property": "C62",
   "status": "partial",
   "theorems": [
    "C62_leaf",
    "C62_group",
    "C62_lens_refuted",
    "C62_nested_refuted",
    "C62_finite"
   ],
   "note": "REFUTED for Lens, before and after display, and for nested groups without aperture (C62_*_refuted); proved for groups of other elements"
  },
  {
   "property": "C63",
   "status": "partial",
   "theorems": [
    "C63_others_partial",
    "C63_in_air_partial",
    "C63_flip_partial",
    "C63_refuted",
    "C63_flip_refuted",
    "C63_subPath_refuted",
    "C63_element_twice_refuted"
   ],
   "note": "REFUTED: building a second path changes the index of a shared Space, flipping one path flips the elements of another, subPath of a path in glass changes the path; proved: histories of append, pop, insert, item and slice assignment, slicing, subPath change no other object except Space indices, nothing at all in air, and flip changes only what the object contains"
  },
  {
   "property": "C64",
   "status": "partial",
   "theorems": [
    "C64_symmetric",
    "C64_opposite",
    "C64_exclusive",
    "C64_threshold_refuted",
    "C64_threshold_all"
   ],
   "note": "REFUTED at the tolerance itself, where neither holds (C64_threshold_refuted); symmetric, exclusive and opposite elsewhere proved"
  },
  {
   "property": "C65",
   "status": "partial",
   "theorems": [
    "C65_equal_partial",
    "C65_refuted",
    "C65_iteration_refuted"
   ],
   "note": "REFUTED: tracing a ray through (or iterating over) one of two equal groups makes them unequal; proved: groups of equal elements that were never traced or iterated over are equal"
  },
  {
   "property": "C66",
   "status": "partial",
   "theorems": [
    "C66_no_wavelength_partial",
    "C66_always_lost",
    "C66_refuted"
   ],
   "note": "REFUTED: every element drops the wavelength (C66_always_lost, C66_refuted); proved for rays without wavelength"
  },
  {
   "property": "C67",
   "status": "proved",
   "theorems": [
    "C67_pieces_same_beam"
   ],
   "note": "exact arithmetic, every N >= 1; clipping by the aperture of a split Space is not part of the property (the pieces have none)"
  },
  {
   "property": "C68",
   "status": "proved",
   "theorems": [
    "C68_drawn_points"
   ],
   "note": ""
  },
  {
   "property": "C69",
   "status": "partial",
   "theorems": [
    "C69_load_replaces",
    "C69_load_extends",
    "C69_empty_refuted",
    "C69_diameter_refuted"
   ],
   "note": "REFUTED for the empty group and for the group's own diameter (C69_*_refuted); proved for every non-empty group built by the constructor"
  },
  {
   "property": "C70",
   "status": "partial",
   "theorems": [
    "C70_modified_group_partial",
    "C70_history_partial",
    "C70_refuted"
   ],
   "note": "REFUTED: a lens appended to an inner group does not reach the matrix of the outer path; proved after every successful operation on the group itself, and kept in air while neither the group nor its elements are modified"
  },
  {
   "property": "C71",
   "status": "proved",
   "theorems": [
    "C71_normal_dispersion"
   ],
   "note": "0.28 to 7 microns, strictly decreasing, all materials but air"
  },
  {
   "property": "C72",
   "status": "proved",
   "theorems": [
    "C72_count_histogram",
    "C72_angles_histogram",
    "C72_bounds",
    "C72_angle_bounds"
   ],
   "note": "exact arithmetic, np.histogram as documented; after any history without a load behind a query"
  },
  {
   "property": "C73",
   "status": "partial",
   "theorems": [
    "C73_reference_partial",
    "C73_focal_refuted",
    "C73_back_refuted",
    "C73_never_refuted"
   ],
   "note": "REFUTED for 96 focal lengths and 97 back focal lengths (C73_focal_refuted, C73_back_refuted; four lenses at every wavelength, C73_never_refuted); C73_reference_partial says exactly which; every class can be built; exact arithmetic"
  },
  {
   "property": "C74",
   "status": "proved",
   "theorems": [
    "C74_any_wavelength",
    "C74_no_power_raises"
   ],
   "note": "exact arithmetic; outside the range the constructor may raise (C74_no_power_raises)"
  },
  {
   "property": "C75",
   "status": "proved",
   "theorems": [
    "C75_visible",
    "C75_near_infrared",
    "C75_infrared",
    "C75_singlet",
    "C75_singlet_grows"
   ],
   "note": "exact arithmetic"
  },
  {
   "property": "C76",
   "status": "partial",
   "theorems": [
    "C76_array_partial",
    "C76_default_partial",
    "C76_list_refuted",
    "C76_list_length",
    "C76_eo_refuted",
    "C76_no_argument",
    "C76_direct_refuted"
   ],
   "note": "REFUTED for lists of wavelengths, lenses of eo.py and lenses that are not of a catalogue class (C76_list_refuted, C76_eo_refuted, C76_direct_refuted); proved for arrays and the default range"
  },
  {
   "property": "C77",
   "status": "partial",
   "theorems": [
    "C77_found_partial",
    "C77_twice_refuted"
   ],
   "note": "REFUTED: E_BAF11 is listed twice while both classes are in memory (C77_twice_refuted); the list is otherwise exact"
  },
  {
   "property": "C78",
   "status": "proved",
   "theorems": [
    "C78_abbe"
   ],
   "note": "exact arithmetic; the effective class of each name"
  },
  {
   "property": "C79",
   "status": "partial",
   "theorems": [
    "C79_same_rays",
    "C79_same_classes",
    "C79_part_refuted",
    "C79_flip_refuted"
   ],
   "note": "REFUTED for equal elements of different classes: a product of two spaces equals a space but has no transferMatrix(upTo) and a Matrix equal to a CurvedMirror flips differently; same traces and attributes proved for all equal elements, identity proved for equal elements of the same classes"
  },
  {
   "property": "C80",
   "status": "partial",
   "theorems": [
    "C80_number",
    "C80_file_partial",
    "C80_centimetres_refuted"
   ],
   "note": "REFUTED for files in centimetres or metres, which are read as millimetres; proved for millimetres and inches"
  },
  {
   "property": "C81",
   "status": "partial",
   "theorems": [
    "C81_rays",
    "C81_angle",
    "C81_NA_partial",
    "C81_NA_refuted"
   ],
   "note": "REFUTED for LUMPlanFL40X and LWD16X, whose back aperture is smaller than 2*f*NA; proved for the four others, and the exact set of accepted rays for all parameters"
  },
  {
   "property": "C82",
   "status": "proved",
   "theorems": [
    "C82_invariant",
    "C82_undefined"
   ],
   "note": "the field of view at the sample is fieldNumber/magnification"
  },
  {
   "property": "C83",
   "status": "proved",
   "theorems": [
    "C83_surfaces",
    "C83_closed",
    "C83_axicon"
   ],
   "note": "surfaces higher than their radius are drawn as the code draws them, but nothing is claimed about the sphere then"
  },
  {
   "property": "C84",
   "status": "partial",
   "theorems": [
    "C84_drawn",
    "C84_exists",
    "C84_plane_turned",
    "C84_turned_refuted",
    "C84_mirror_refuted",
    "C84_aperture_refuted"
   ],
   "note": "REFUTED for every lens with a plane surface turned over (radius -inf, ZeroDivisionError), for plane mirrors and for apertures without limit; proved for every lens after an even number of flips, and for every lens without a plane surface"
  },
  {
   "property": "C85",
   "status": "partial",
   "theorems": [
    "C85_position",
    "C85_group_position",
    "C85_count",
    "C85_lens",
    "C85_open_lens",
    "C85_aperture",
    "C85_matrix_twice",
    "C85_matrix_refuted",
    "C85_objective_outline",
    "C85_objective_bars",
    "C85_objective_refuted",
    "C85_matrix_bars",
    "C85_lens_arrow",
    "C85_group_size"
   ],
   "note": "REFUTED for general matrices, whose box appears at twice the position, and for the front aperture of objectives, whose bars have the diameter of the back aperture and move with the zoom; proved for thin lenses, apertures and for the positions of all graphics"
  },
  {
   "property": "C86",
   "status": "partial",
   "theorems": [
    "C86_efficiency",
    "C86_lists",
    "C86_coordinates",
    "C86_expected",
    "C86_positions",
    "C86_large_object_refuted",
    "C86_no_light_refuted",
    "C86_vignetting_refuted"
   ],
   "note": "REFUTED for objects larger than the field (rays that get through are counted as blocked), when no ray gets through (ZeroDivisionError or ValueError instead of 0 %), and when exactly one ray is vignetted ('No losses to vignetting'); proved for objects inside the field, in air, in front of thin apertures"
  },
  {
   "property": "C87",
   "status": "partial",
   "theorems": [
    "C87_NA",
    "C87_finite",
    "C87_aperture_stop",
    "C87_field_stop",
    "C87_two_elements",
    "C87_NA_refuted",
    "C87_object_plane_refuted"
   ],
   "note": "REFUTED: NA() raises AttributeError without an aperture stop, and hasApertureStop() is True when the only aperture is in the object plane; proved otherwise for thin apertures"
  },
  {
   "property": "C88",
   "status": "partial",
   "theorems": [
    "C88_lambertian",
    "C88_random_lambertian",
    "C88_gaussian",
    "C88_one_angle_refuted",
    "C88_three_angles_refuted",
    "C88_one_height"
   ],
   "note": "REFUTED: LambertianRays with N = 1 has no rays, N = 3 gives I parallel rays per height although N is documented as the number of rays for each point, and M = 1 puts all rays at yMin; proved for M, N >= 2, and for both random sources"
  },
  {
   "property": "C89",
   "status": "partial",
   "theorems": [
    "C89_first_figure",
    "C89_height",
    "C89_no_field",
    "C89_forgotten",
    "C89_height_lost",
    "C89_height_refuted",
    "C89_height_style_refuted",
    "C89_colours_refuted",
    "C89_default_style_refuted",
    "C89_with_object",
    "C89_styles"
   ],
   "note": "REFUTED: after a first figure all settings return to the defaults and design() raises TypeError; objectHeight is replaced by the field of view at the second figure or after a style is chosen; design('default') does not restore the defaults; proved for the first figure, and for paths without a field stop"
  },
  {
   "property": "C90",
   "status": "partial",
   "theorems": [
    "C90_list",
    "C90_no_length",
    "C90_list_refuted",
    "C90_lens_refuted"
   ],
   "note": "REFUTED: the object drawn by default is appended to the caller's list and shown again with its old size, and a path of zero length (a single thin lens) raises ZeroDivisionError; proved that the list is otherwise unchanged"
  },
  {
   "property": "C91",
   "status": "partial",
   "theorems": [
    "C91_lines",
    "C91_colours",
    "C91_one_colour",
    "C91_inside",
    "C91_point_lamp_refuted",
    "C91_one_colour_refuted",
    "C91_colour_name_refuted",
    "C91_no_colour_refuted"
   ],
   "note": "REFUTED: a point source on the axis with one colour (the default for lamps) raises IndexError, the name of a colour is spelled out letter by letter, no colour raises ZeroDivisionError; proved for two colours or more, and for one colour off the axis"
  },
  {
   "property": "C92",
   "status": "partial",
   "theorems": [
    "C92_lines",
    "C92_marks",
    "C92_narrowest",
    "C92_marks_in_glass_refuted",
    "C92_axicon",
    "C92_cavity"
   ],
   "note": "REFUTED: in a medium of index n the arrows are sqrt(n) times too far from the axis, and no beam goes through an axicon; proved that the lines are the true beam, that the arrows stand at the waists, and that their width is right in air"
  },
  {
   "property": "C93",
   "status": "partial",
   "theorems": [
    "C93_lines",
    "C93_all_lines",
    "C93_objects_refuted",
    "C93_lamps_refuted",
    "C93_hidden"
   ],
   "note": "REFUTED: the lines of an object are lost when a later object is at the same place, or within 0.05 mm, away from the entrance (0.005 mm for lamps), because they share a key; proved that all other lines are drawn, and which groups are hidden"
  },
  {
   "property": "C94",
   "status": "partial",
   "theorems": [
    "C94_graphics",
    "C94_images_at_entrance",
    "C94_images_inside",
    "C94_arrows",
    "C94_two_objects_refuted",
    "C94_color_refuted",
    "C94_place_refuted",
    "C94_images_only_refuted",
    "C94_arrow_shape"
   ],
   "note": "REFUTED: of two objects at the entrance (or written at the same position) only the last is drawn; ObjectRays(color=...) is ignored; images in front of an unsymmetric lens are in the wrong place; showObject=False with showImages=True raises KeyError away from the entrance; proved otherwise"
  },
  {
   "property": "C95",
   "status": "partial",
   "theorems": [
    "C95_range",
    "C95_range_exists",
    "C95_laser_range",
    "C95_object_refuted",
    "C95_beam_refuted"
   ],
   "note": "REFUTED: objects given as ObjectRays in raysList and beams that spread are not taken into account and can be far outside of the axis; proved for the elements, the object of the path and its images, and that the range exists for paths of spaces, thin lenses and apertures"
  },
  {
   "property": "C96",
   "status": "partial",
   "theorems": [
    "C96_open_lens",
    "C96_below_refuted"
   ],
   "note": "REFUTED: rays that are only below the axis do not count (the highest point is used, not the furthest from the axis); proved for the highest point and for rays in pairs y, -y"
  },
  {
   "property": "C97",
   "status": "partial",
   "theorems": [
    "C97_focal_points",
    "C97_only_focal_points",
    "C97_objective",
    "C97_where",
    "C97_joined",
    "C97_names",
    "C97_window_refuted",
    "C97_zero_refuted"
   ],
   "note": "REFUTED: a CompoundLens without power makes the figure of the whole path raise TypeError; focal points on both sides of zero get two marks at 0.000 and -0.000; proved otherwise, for paths of single elements and catalogue lenses (elements inside a MatrixGroup are not marked)"
  },
  {
   "property": "C98",
   "status": "partial",
   "theorems": [
    "C98_display",
    "C98_no_power",
    "C98_no_vertices",
    "C98_objective_refuted",
    "C98_no_figure_refuted"
   ],
   "note": "REFUTED: the figure of an Objective also marks the focal points of the lens inside, at places that are not focal points; a Space and elements without vertices have no figure; proved for all other elements"
  },
  {
   "property": "C99",
   "status": "partial",
   "theorems": [
    "C99_silent",
    "C99_beginner",
    "C99_expert",
    "C99_seen",
    "C99_import",
    "C99_expert_refuted",
    "C99_beginner_refuted",
    "C99_environment_refuted"
   ],
   "note": "REFUTED: the filter for UserWarning is added last and hides the filter for hints, so expertMode shows hints and beginnerMode shows a repeated hint once; RAYTRACING_EXPERT is saved for all later sessions; proved for every history: silent hides all, beginner shows each warning once per place, expert each text once per session"
  },
  {
   "property": "C100",
   "status": "partial",
   "theorems": [
    "C100_due",
    "C100_imports",
    "C100_imports_refuted",
    "C100_day_refuted",
    "C100_short",
    "C100_announced",
    "C100_unreadable",
    "C100_newest_refuted",
    "C100_name_refuted"
   ],
   "note": "REFUTED: a check on a whole second is written without a fraction and no later import succeeds; a check is due only after two days; the last release of the list is taken for the newest, and one name that is not a version hides all; proved for all sequences of imports at other times and for lists that end with the newest release"
  },
  {
   "property": "C101",
   "status": "partial",
   "theorems": [
    "C101_leaves",
    "C101_edges",
    "C101_all_printed",
    "C101_inner_refuted",
    "C101_text"
   ],
   "note": "REFUTED: only classes without subclasses are returned; proved that exactly these are, and that the hierarchy is printed completely"
  },
  {
   "property": "C102",
   "status": "partial",
   "theorems": [
    "C102_reset",
    "C102_again",
    "C102_sideways",
    "C102_apart",
    "C102_stops_partial",
    "C102_two",
    "C102_two_inside",
    "C102_overlap_refuted",
    "C102_inside_refuted",
    "C102_raises_refuted",
    "C102_note_refuted",
    "C102_reset_refuted"
   ],
   "note": "REFUTED: three labels can still overlap or be pushed out of the display, five at an edge make the figure raise AttributeError, labels in axes units are moved in data units, resetting is inexact on doubles; proved in exact arithmetic: no influence of earlier moves for any labels, nothing moves when nothing touches, two labels end apart and inside. Missing: a condition under which many labels end apart"
  },
  {
   "property": "C103",
   "status": "partial",
   "theorems": [
    "C103_clicks",
    "C103_boxes",
    "C103_no_box",
    "C103_label_refuted",
    "C103_lines"
   ],
   "note": "REFUTED: the label of a hidden graphic stays; proved for graphics and lines for all sequences of clicks"
  },
  {
   "property": "C104",
   "status": "partial",
   "theorems": [
    "C104_field",
    "C104_no_field",
    "C104_nothing",
    "C104_pupil",
    "C104_raises_refuted",
    "C104_hangs_refuted",
    "C104_pupil_refuted",
    "C104_object_refuted"
   ],
   "note": "REFUTED: the figure raises for an aperture on an image of the object, never returns for a small aperture on the object, raises for an entrance pupil seen from glass, and marks an aperture stop on the object where there is no aperture; proved for the aimed paths of C36-C38 and the pupils of C35"
  },
  {
   "property": "C105",
   "status": "partial",
   "theorems": [
    "C105_ray",
    "C105_ray_alike",
    "C105_matrix",
    "C105_matrix_alike",
    "C105_matrix_f",
    "C105_beam",
    "C105_beam_not_finite",
    "C105_not_finite",
    "C105_prescription",
    "C105_wavelength_refuted",
    "C105_weak_refuted",
    "C105_afocal_refuted"
   ],
   "note": "REFUTED: the wavelength is printed a thousand times too large (mm taken for m), a lens weaker than 1e-5 prints a focal length that effectiveFocalLengths() denies, System4f(3,7) is not printed as afocal because of rounding; proved for all doubles: the other numbers are printed correctly"
  },
  {
   "property": "C106",
   "status": "proved",
   "theorems": [
    "C106_newton",
    "C106_reversed"
   ],
   "note": "exact arithmetic"
  },
  {
   "property": "C107",
   "status": "proved",
   "theorems": [
    "C107_two",
    "C107_lensmaker"
   ],
   "note": "exact arithmetic; elements weaker than 1e-5 have no focal length in the code"
  },
  {
   "property": "C108",
   "status": "proved",
   "theorems": [
    "C108_contact",
    "C108_order",
    "C108_relay",
    "C108_plates"
   ],
   "note": "exact arithmetic"
  },
  {
   "property": "C109",
   "status": "partial",
   "theorems": [
    "C109_stable",
    "C109_mode",
    "C109_start_refuted"
   ],
   "note": "REFUTED: a resonator of two flat mirrors and a lens is stable seen from one mirror and not from the other one (the test of power at 1e-5); proved for all cavities with power at both places, in exact arithmetic"
  },
  {
   "property": "C110",
   "status": "partial",
   "theorems": [
    "C110_glass",
    "C110_warned",
    "C110_refuted",
    "C110_plane_refuted"
   ],
   "note": "REFUTED: AC060_010_B (also _ML) and AC254_125_A_ML have an edge thickness that contradicts their radii and thickness, and the edge of a lens with a plane outer surface is never checked (its corner is not a number), so a wrong one is not reported; proved for all catalogue lenses: surfaces never cross, all other edges are right and exactly the wrong ones give a warning, in exact arithmetic"
  },
  {
   "property": "C111",
   "status": "partial",
   "theorems": [
    "C111_two_mirrors",
    "C111_weak_refuted"
   ],
   "note": "REFUTED for very weak mirrors: mirrors with a radius of 1 km, 1 m apart, have 0 < g1 g2 < 1 and isStable is False since |C| is below 1e-5; proved (stability criterion and mode) for all two-mirror resonators whose group hasPower, in exact arithmetic"
  },
  {
   "property": "C112",
   "status": "proved",
   "theorems": [
    "C112_lens_formula"
   ],
   "note": ""
  },
  {
   "property": "C113",
   "status": "proved",
   "theorems": [
    "C113_rays"
   ],
   "note": ""
  },
  {
   "property": "C114",
   "status": "proved",
   "theorems": [
    "C114_image_size",
    "C114_unlimited",
    "C114_infinity"
   ],
   "note": ""
  },
  {
   "property": "C115",
   "status": "partial",
   "theorems": [
    "C115_systems",
    "C115_rays",
    "C115_stop",
    "C115_images",
    "C115_flip",
    "C115_focal_partial",
    "C115_chief_partial",
    "C115_focal_refuted",
    "C115_chief_refuted",
    "C115_field_refuted"
   ],
   "note": "REFUTED for quantities decided with fixed tolerances: a lens of 150 m has a focal length in metres and none in millimetres, a chief ray exists in millimetres and not in metres, and a camera with a field of 20 mm has an unlimited field in micrometres; proved in exact arithmetic for building, tracing, the aperture stop, conjugates and flips, and for focal lengths and chief and marginal rays while hasPower and isImaging answer the same in both units"
  },
  {
   "property": "C116",
   "status": "partial",
   "theorems": [
    "C116_default",
    "C116_field",
    "C116_stop",
    "C116_unlimited",
    "C116_too_small",
    "C116_perfect",
    "C116_units",
    "C116_coarse_refuted",
    "C116_height_refuted"
   ],
   "note": "REFUTED: with precision = 0.5 the field of a camera 32.5 wide is never found (the call does not return), as for every field whose half is below 37.5 times the precision and for precision = 0, and an edge at 16.25 is overlooked with maxHeight = 20; proved in exact arithmetic: an edge h with 37.5 P <= h and 2 h + 300 P <= maxHeight is found to 2 P, no edge below maxHeight gives an unlimited field, and the answer does not depend on the unit when both settings are in it"
  },
  {
   "property": "C117",
   "status": "partial",
   "theorems": [
    "C117_round_trip",
    "C117_others",
    "C117_failed_load",
    "C117_accepts",
    "C117_groups",
    "C117_killed",
    "C117_random_partial",
    "C117_returns",
    "C117_second",
    "C117_forever",
    "C117_random_refuted",
    "C117_count_refuted",
    "C117_tuple_refuted",
    "C117_killed_refuted"
   ],
   "note": "REFUTED: a random source of 1000 rays saves an empty list (or only the rays looked at), keeps its own maxCount after load so that it drops rays of the file or makes up others, a file with a tuple is accepted and breaks append, and a program killed while saving loses the older file; proved: the round trip for any sequence of operations on any number of objects, failed loads change nothing, which files are accepted, what a kill can leave, and when save returns"
  },
  {
   "property": "C118",
   "status": "proved",
   "theorems": [
    "C118_stages"
   ],
   "note": "for every list of elements with matched indices and every object for which all intermediate images are at finite distances"
  },
  {
   "property": "C119",
   "status": "partial",
   "theorems": [
    "C119_strokes",
    "C119_raises",
    "C119_contours",
    "C119_glass",
    "C119_polygons",
    "C119_label",
    "C119_length_refuted",
    "C119_box"
   ],
   "note": "REFUTED: Graphic.length adds heights to lengths (a box 10 long and 20 high is 30 long); proved: the strokes drawn for every component, when drawing raises, the number of contours, closed outlines, and where labels are"
  },
  {
   "property": "C120",
   "status": "partial",
   "theorems": [
    "C120_cone",
    "C120_afocal",
    "C120_parallel",
    "C120_first",
    "C120_far",
    "C120_f_number_of_distance_refuted",
    "C120_telecentric_refuted"
   ],
   "note": "REFUTED for telecentric 4f systems, which have no power and whose f-number is NaN, and for the distance of the object: a lens f=50 of diameter 25 with an aperture of 10 behind it is f/3 for an object at 10 and f/2 for one at 200, although the aperture stops parallel rays inside the reported pupil; proved: the cone of light, infinite without power unless telecentric, which parallel rays get through when the stop also limits parallel light, that the first aperture met outside by the probing ray is the stop, and that for every object far enough the f-number is that of the first aperture"
  },
  {
   "property": "C121",
   "status": "proved",
   "theorems": [
    "C121_arrives_where_it_should",
    "C121_blocked_alike",
    "C121_group_matrix",
    "C121_matrix_tells_the_trace",
    "C121_no_overflow",
    "C121_at_the_edge"
   ],
   "note": "proved for the double precision instance of the model (Coq's primitive floats, specified by the standard library's FloatAxioms), the exact value of each double being what is meant by exact; beside it the witness that a ray within rounding of the edge of an opening can be decided differently"
  },
  {
   "property": "C122",
   "status": "proved",
   "theorems": [
    "C122_append",
    "C122_pop",
    "C122_insert",
    "C122_set_item",
    "C122_set_slice",
    "C122_new_path",
    "C122_slice",
    "C122_sub_path",
    "C122_flip",
    "C122_pop_raises"
   ],
   "note": "proved for the model with object identities, any number type; item assignment for indices from the front, slices for 0 <= start <= stop"
  },
  {
   "property": "C123",
   "status": "partial",
   "theorems": [
    "C123_assembled",
    "C123_thin_elements_assembled",
    "C123_accepted_are_consistent",
    "C123_refuted"
   ],
   "note": "REFUTED in double precision: ImagingPath of Space(6e14), Lens(900), Space(910) - a telescope looking at Jupiter, in mm - raises ValueError because the rounding of the product exceeds 1e-5 (C123_refuted). Proved: paths in air assemble whenever the rounding bound of every beginning (5 parts in 2^50 per element of the terms of the determinant) stays below 0.99e-5, and what is accepted is consistent to 1.01e-5 up to that bound; elements with other indices than 1 are not covered by the rounding theorem"
  },
  {
   "property": "C124",
   "status": "partial",
   "theorems": [
    "C124_focal_length",
    "C124_no_power",
    "C124_image",
    "C124_object",
    "C124_infinity",
    "C124_refuted"
   ],
   "note": "REFUTED in double precision for the focal plane: forwardConjugate of Space(49), Lens(49) reports an image at -4.4e17 with a matrix, where the exact image is at infinity (C124_refuted). Proved: focal lengths within three times the rounding of C, infinite below the threshold; image and object distances within three times the rounding of B and D (or A), with a matrix whose B is rounding only; an image is said to be at infinity only when D is zero up to rounding. Elements with other indices than 1 are not covered"
  },
  {
   "property": "C125",
   "status": "partial",
   "theorems": [
    "C125_menu",
    "C125_entries"
   ],
   "note": ""
  },
  {
   "property": "C126",
   "status": "partial",
   "theorems": [
    "C126_examples",
    "C126_order",
    "C126_all",
    "C126_chosen",
    "C126_stopped",
    "C126_refused",
    "C126_one_thing",
    "C126_zero_refuted"
   ],
   "note": "REFUTED for the number 0 (and negative ones): -e 0 runs the last example (C126_zero_refuted). Proved: which files are examples and their order; -e all; any list of listed numbers; a number beyond the last one or a failing example ends the run after those before it; texts that are no integers are refused before anything is done; precedence of -c, -t, -l"
  },
  {
   "property": "C127",
   "status": "partial",
   "theorems": [
    "C127_text",
    "C127_same",
    "C127_refused",
    "C127_layout",
    "C127_words",
    "C127_distinct"
   ],
   "note": ""
  },
  {
   "property": "C128",
   "status": "partial",
   "theorems": [
    "C128_utf16_refuted",
    "C128_utf8_refuted"
   ],
   "note": "REFUTED: a file in UTF-16 without a byte order mark is taken for UTF-8 and none of its words is found; in UTF-8 a mark becomes part of the first word, so a file that starts with UNIT is not read."
  },
  {
   "property": "C129",
   "status": "partial",
   "theorems": [
    "C129_equivalence",
    "C129_equal",
    "C129_blocked_refuted",
    "C129_doubles"
   ],
   "note": "REFUTED when one of the rays was blocked before: __eq__ ignores isBlocked, and a blocked ray is not traced on (C129_blocked_refuted). Proved for rays that are both blocked or both not, any element or path, whatever their positions and wavelengths, in exact arithmetic and in doubles; == is an equivalence."
  },
  {
   "property": "C130",
   "status": "partial",
   "theorems": [
    "C130_created",
    "C130_trace",
    "C130_sizes",
    "C130_modes",
    "C130_stable_refuted",
    "C130_width_refuted"
   ],
   "note": "REFUTED for cavities: hasPower compares C with the fixed number 1e-5, so a stable cavity of two 1 m mirrors is unstable when written in micrometres (C130_stable_refuted), and the modes always have the wavelength 632.8e-6, so in metres the mode is 30 times too wide (C130_width_refuted). Proved in exact arithmetic for creating, tracing and reading beams, and for the q of the modes and stability while hasPower answers the same in both units."
  },
  {
   "property": "C131",
   "status": "partial",
   "theorems": [
    "C131_exact",
    "C131_doubles",
    "C131_chief",
    "C131_marginal"
   ],
   "note": ""
  },
  {
   "property": "C132",
   "status": "partial",
   "theorems": [
    "C132_beams",
    "C132_frame",
    "C132_changed_beam_refuted",
    "C132_changed_list_refuted"
   ],
   "note": "REFUTED when the caller changes a beam or a returned list: GaussianBeam has no __eq__, so a beam whose q was changed gets its old trace (C132_changed_beam_refuted), and the list returned is the cache itself, so popping from it shortens the next trace (C132_changed_list_refuted). Proved for every session of traces otherwise."
  },
  {
   "property": "C133",
   "status": "partial",
   "theorems": [
    "C133_settings",
    "C133_rays",
    "C133_on_figure",
    "C133_height",
    "C133_full_angle_refuted",
    "C133_one_ray_refuted",
    "C133_numbers_refuted",
    "C133_negative_height_refuted",
    "C133_negative_fan_refuted"
   ],
   "note": "REFUTED: fanAngle, documented as the full angle, is half of it (C133_full_angle_refuted); the only ray of a fan with rayNumber=1 is its lowest, not its middle one (C133_one_ray_refuted); displayWithObject() takes fanNumber and rayNumber the other way round from its documentation (C133_numbers_refuted) and sets negative object heights (C133_negative_height_refuted); in a short path the chosen fan angle is negative (C133_negative_fan_refuted). Proved: the settings last made are in force after any history, the exact place and angle of every ray, that the chosen fan is on the figure when the path is at least a tenth as long as its range, and the sign of the height without negative diameters."
  },
  {
   "property": "C134",
   "status": "partial",
   "theorems": [
    "C134_magnification",
    "C134_image",
    "C134_in_metres_refuted"
   ],
   "note": "REFUTED for small B: isImaging compares B with 1e-5 whatever the unit, so nine micrometres of air given in metres are reported as an image with magnification (1, 1) although forwardConjugate() finds the image elsewhere (C134_in_metres_refuted). Proved for B = 0, for |B| >= 1e-5 and for the matrices of forwardConjugate()."
  },
  {
   "property": "C135",
   "status": "partial",
   "theorems": [
    "C135_fan",
    "C135_fanGroup",
    "C135_uniform",
    "C135_symmetric",
    "C135_lamp",
    "C135_replacement",
    "C135_one_height_refuted",
    "C135_doubles_refuted"
   ],
   "note": "REFUTED for a single height, which UniformRays puts on the axis even when the range does not contain it while fanGroup puts it at the lower end (C135_one_height_refuted), and in doubles, where only fanGroup leaves the range (C135_doubles_refuted). Proved over the reals for all ranges and at least two heights and angles (fan and fanGroup: at least one)."
  },
  {
   "property": "C136",
   "status": "proved",
   "theorems": [
    "C136_heights"
   ],
   "note": "Exact arithmetic. Positions along the axis (C17_group_twice_refuted) and paths with apertures (C17_blocked_ray_revived_refuted, C17_inner_trace_refuted) are refuted under C17."
  },
  {
   "property": "C137",
   "status": "proved",
   "theorems": [
    "C137_field",
    "C137_numbers"
   ],
   "note": "Exact arithmetic; object distance at least 1e-5."
  },
  {
   "property": "C138",
   "status": "proved",
   "theorems": [
    "C138_relay"
   ],
   "note": "Exact arithmetic; first focal length at least 1e-5."
  },
  {
   "property": "C139",
   "status": "proved",
   "theorems": [
    "C139_image",
    "C139_lens"
   ],
   "note": "Exact arithmetic; flat and curved wavefronts, no axicons."
  },
  {
   "property": "C140",
   "status": "proved",
   "theorems": [
    "C140_focal_plane",
    "C140_lens"
   ],
   "note": "Exact arithmetic; flat wavefront in front, no axicons."
  }
 ]
}