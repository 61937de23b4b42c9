{
 "claims": [
  {
   "property": "C01",
   "status": "partial",
   "theorems": [
    "C01_distance_symmetric_nonneg",
    "C01_double",
    "C01_infinite_refuted"
   ],
   "note": "Proved over exact reals and for doubles, for every box accepted by the setter: the same double in both orders (finite or infinite coordinates), never negative, +0 from an atom to itself. REFUTED only as a Python comparison when the value is NaN, e.g. for equal infinite coordinates; never NaN for finite coordinates in an orthogonal box."
  },
  {
   "property": "C02",
   "status": "proved",
   "theorems": [
    "C02_minimum_image_is_minimum",
    "C02_diagonal_box_is_orthogonal",
    "C02_double"
   ],
   "note": "Exact real arithmetic; C02_double: the IEEE double returned is within 2^-50 of the sum of the side lengths of the exact minimum."
  },
  {
   "property": "C03",
   "status": "proved",
   "theorems": [
    "C03_distance_vector_consistent",
    "C03_double"
   ],
   "note": "Exact real arithmetic; C03_double for IEEE doubles with error bounds."
  },
  {
   "property": "C04",
   "status": "proved",
   "theorems": [
    "C04_translation_invariant",
    "C04_image_invariant",
    "C04_double",
    "C04_translation_double",
    "C04_far_image_refuted"
   ],
   "note": "IEEE doubles in orthogonal boxes: C04_double bounds the change by the change of the differences plus two roundings of a distance, C04_translation_double by three. The last theorem is the exhibited pair beyond 1.5 box lengths."
  },
  {
   "property": "C05",
   "status": "proved",
   "theorems": [
    "C05_triangle",
    "C05_double"
   ],
   "note": "Exact real arithmetic; C05_double for IEEE doubles with an error bound."
  },
  {
   "property": "C06",
   "status": "proved",
   "theorems": [
    "C06_triclinic_image",
    "C06_setter_reaches_triclinic",
    "C06_closest_image_refuted"
   ],
   "note": "Exact inverse from numpy assumed (oracle hypothesis); the last theorem shows that the image need not be the closest."
  },
  {
   "property": "C07",
   "status": "partial",
   "theorems": [
    "C07_orthogonal_history",
    "C07_skewed_box_is_triclinic",
    "C07_history_refuted",
    "C07_cancelling_cosines_refuted"
   ],
   "note": "REFUTED as stated: the triclinic flag is never cleared, and non-orthogonal boxes whose three cosines cancel are treated as orthogonal. The positive theorems say when the treatment is right."
  },
  {
   "property": "C08",
   "status": "partial",
   "theorems": [
    "C08_box_get_after_set",
    "C08_stale_box_refuted"
   ],
   "note": "REFUTED for histories in which a list of fewer than 200 atoms was assigned before the box; proved for all other histories."
  },
  {
   "property": "C09",
   "status": "proved",
   "theorems": [
    "C09_atoms_roundtrip",
    "C09_assignment_succeeds"
   ],
   "note": "For any arithmetic, in particular IEEE doubles."
  },
  {
   "property": "C10",
   "status": "proved",
   "theorems": [
    "C10_small_systems_padded"
   ],
   "note": "For any arithmetic; the cube root is the exact integer one (see DESIGN)."
  },
  {
   "property": "C11",
   "status": "proved",
   "theorems": [
    "C11_repeat"
   ],
   "note": "For any arithmetic."
  },
  {
   "property": "C12",
   "status": "partial",
   "theorems": [
    "C12_counters",
    "C12_add_ghosts_refuted",
    "C12_ghost_first_refuted"
   ],
   "note": "REFUTED for adding ghosts to a system without ghosts and for lists with a ghost before a real atom; proved for every other history."
  },
  {
   "property": "C13",
   "status": "partial",
   "theorems": [
    "C13_set_get_atom",
    "C13_crystal",
    "C13_ase",
    "C13_lammps_refuted",
    "C13_ghost_writeback_refuted"
   ],
   "note": "REFUTED for atoms of LAMMPS dump files: read_snap stores the index of the next atom, so for every file read and every real atom, writing it back overwrites the next stored atom (or is out of range). Refuted too for images of small systems. Proved for all atoms whose stored index is their position, and so for all atoms of make_crystal and of ASE objects."
  },
  {
   "property": "C14",
   "status": "partial",
   "theorems": [
    "C14_remap_atoms",
    "C14_double_refuted"
   ],
   "note": "Proved in exact real arithmetic. REFUTED for doubles: an atom just below 0 is remapped to the box length itself and, with remove_atoms=True, dropped."
  },
  {
   "property": "C15",
   "status": "proved",
   "theorems": [
    "C15_cutoff_neighbours",
    "C15_membership",
    "C15_minimum_image_neighbours",
    "C15_double"
   ],
   "note": "Any arithmetic; C15_minimum_image_neighbours (exact reals, orthogonal boxes) ties the neighbours to the closest images, C15_double does so for IEEE doubles up to an error bound."
  },
  {
   "property": "C16",
   "status": "proved",
   "theorems": [
    "C16_symmetric"
   ],
   "note": "Any arithmetic, all-pairs and cell-list paths."
  },
  {
   "property": "C17",
   "status": "partial",
   "theorems": [
    "C17_cutoff_filter",
    "C20_adaptive_method",
    "C17_number_refuted",
    "C17_sann_refuted",
    "C17_voronoi_refuted"
   ],
   "note": "REFUTED: proved for numeric and adaptive cutoffs; the number, sann and voronoi methods list neighbours the filter forbids."
  },
  {
   "property": "C18",
   "status": "partial",
   "theorems": [
    "C18_cells_equal_brute_force",
    "C18_find_neighbors_any_size",
    "C18_double",
    "C18_snap_refuted",
    "C18_two_cells_refuted",
    "C18_inside_box_refuted",
    "C18_inside_box_missed_refuted"
   ],
   "note": "REFUTED for atoms with a coordinate in (-1e-6,0), which are put into the wrong cell, and for doubles just below the upper face, which are put into a cell outside the box; proved (exact reals) for all other atoms, and for doubles with an explicit error bound for atoms not within 2^-50 of the upper face."
  },
  {
   "property": "C19",
   "status": "proved",
   "theorems": [
    "C19_number_method",
    "C19_double"
   ],
   "note": "Exact reals, and IEEE doubles as computed (C19_double: any libm, up to 4000 atoms, coordinates may be NaN or infinite, sort only assumed to work on lists without NaN); std::sort is any function returning a sorted permutation."
  },
  {
   "property": "C20",
   "status": "proved",
   "theorems": [
    "C20_adaptive_method",
    "C20_double"
   ],
   "note": "Exact reals, and IEEE doubles as computed (C20_double, as C19_double); nlimit >= 1."
  },
  {
   "property": "C21",
   "status": "partial",
   "theorems": [
    "C21_what_is_found",
    "C21_right_iff",
    "C21_sann_skips_refuted",
    "C21_sann_reads_outside_refuted"
   ],
   "note": "REFUTED: the fourth nearest atom is skipped, and the candidate list is read past its end. What is found, when it fails and when it reads outside is characterised over the reals for all systems; the result is right exactly for atoms with three neighbours (distinct distances)."
  },
  {
   "property": "C22",
   "status": "partial",
   "theorems": [
    "C22_overrun_iff",
    "C22_overrun_refuted"
   ],
   "note": "REFUTED: more than 300 neighbours overrun the arrays; characterised exactly for the all-pairs search."
  },
  {
   "property": "C23",
   "status": "partial",
   "theorems": [
    "C23_history_independent",
    "C23_voronoi_triclinic",
    "C23_voronoi_triclinic_refuted"
   ],
   "note": "REFUTED: a Voronoi search on a triclinic cell without ghosts embeds the system and leaves 26 ghost copies of each atom at distance 0, which the next cutoff search lists. Proved, any arithmetic, for all histories in which Voronoi searches are on non-triclinic cells or on systems that already have ghosts."
  },
  {
   "property": "C24",
   "status": "partial",
   "theorems": [
    "C24_bad_arguments_rejected",
    "C24_unknown_method_refuted",
    "C24_stale_flag_refuted",
    "C19_number_method",
    "C20_adaptive_method"
   ],
   "note": "REFUTED for unknown methods and for the flag after a rejected call; proved for thresholds and cutoff types."
  },
  {
   "property": "C25",
   "status": "proved",
   "theorems": [
    "C25_q_equals_definition"
   ],
   "note": "Exact reals; all environments without coincident atoms, all weights, every l in 2..12, averaged values included."
  },
  {
   "property": "C26",
   "status": "proved",
   "theorems": [
    "C26_rotation_invariant"
   ],
   "note": "Exact reals, all orthogonal matrices."
  },
  {
   "property": "C27",
   "status": "proved",
   "theorems": [
    "C27_between_0_and_1"
   ],
   "note": "Exact reals."
  },
  {
   "property": "C28",
   "status": "proved",
   "theorems": [
    "C28_order_scale_inversion"
   ],
   "note": "Exact reals."
  },
  {
   "property": "C29",
   "status": "proved",
   "theorems": [
    "C29_out_of_range_rejected",
    "C29_set_then_get",
    "C29_list_not_atomic_refuted"
   ],
   "note": "Any arithmetic. The last theorem records that set_q with a list stores the values before an invalid one and then raises."
  },
  {
   "property": "C30",
   "status": "partial",
   "theorems": [
    "C30_normalised_after_search",
    "C30_normalised_after_voronoi",
    "C30_adaptive_keeps_flag",
    "C30_stale_voronoi_refuted"
   ],
   "note": "REFUTED: an adaptive search after a Voronoi search keeps the flag that switches the normalisation off; proved for all other searches (Voronoi searches: cell not triclinic or ghosts already made, since the ghosts made by the embedding have an uninitialised condition)."
  },
  {
   "property": "C31",
   "status": "proved",
   "theorems": [
    "C31_bounded_symmetric_self",
    "C31_stored_values_are_s_ij"
   ],
   "note": "Over the reals: values in [-1,1], symmetric, 1 on the diagonal for any components; the stored values are s_ij as defined from the harmonics."
  },
  {
   "property": "C32",
   "status": "partial",
   "theorems": [
    "C32_what_is_counted",
    "C32_threshold_refuted"
   ],
   "note": "REFUTED: with comparecriteria 0 every neighbour whose s_ij differs from the threshold is counted, otherwise none, and right is ignored (dangling else, system.cpp:1717-1720). C32_what_is_counted characterises the count exactly."
  },
  {
   "property": "C33",
   "status": "proved",
   "theorems": [
    "C33_classification",
    "C33_monotone",
    "C33_invalid_rejected",
    "C33_succeeds",
    "C33_cluster"
   ],
   "note": "The conjunction over any number system; monotone over the reals and in IEEE arithmetic; rejection of each invalid argument in the order of the checks."
  },
  {
   "property": "C34",
   "status": "proved",
   "theorems": [
    "C34_connected_components",
    "C34_any_graph",
    "C34_succeeds"
   ],
   "note": ""
  },
  {
   "property": "C35",
   "status": "proved",
   "theorems": [
    "C35_ids_and_largest_size"
   ],
   "note": ""
  },
  {
   "property": "C36",
   "status": "partial",
   "theorems": [
    "C36_flag_marks_largest",
    "C36_nothing_selected",
    "C36_empty_selection_refuted"
   ],
   "note": "REFUTED for an empty selection: every atom is flagged. Proved when an atom is selected."
  },
  {
   "property": "C37",
   "status": "partial",
   "theorems": [
    "C37_joined_across_boundaries",
    "C37_small_system_refuted"
   ],
   "note": "REFUTED for systems under 200 atoms: neighbours that are ghosts do not join the clusters. Proved for systems without ghosts."
  },
  {
   "property": "C38",
   "status": "proved",
   "theorems": [
    "C38_terminates",
    "C38_each_selected_atom_once",
    "C38_cluster_atoms_ends"
   ],
   "note": ""
  },
  {
   "property": "C39",
   "status": "partial",
   "theorems": [
    "C39_counts",
    "C39_adaptive_succeeds",
    "C39_lattice_succeeds_iff",
    "C39_few_atoms_refuted"
   ],
   "note": "Proved whenever the analysis returns, and it always returns without a lattice constant. REFUTED with a lattice constant: it reads outside the candidate list (undefined behaviour) iff some atom has fewer than 14 candidates."
  },
  {
   "property": "C40",
   "status": "partial",
   "theorems": [
    "C40_signatures",
    "C40_shapes",
    "C40_labels",
    "C40_exclusive",
    "C40_order_of_neighbours",
    "C40_ring6_refuted",
    "C40_order_of_atoms_refuted"
   ],
   "note": "Labels proved over the reals for every system whose atoms have 14 candidates. REFUTED in two points: two triangles count as a 6-6-6 bond, and if some atom has fewer than 14 candidates the adaptive labels depend on the order of the atoms."
  },
  {
   "property": "C41",
   "status": "partial",
   "theorems": [
    "C41_second_call_refuted",
    "C41_same_geometry",
    "C41_after_reset"
   ],
   "note": "REFUTED: candidates of the first call accumulate. Proved after reset_neighbors and for any history that leaves no candidates."
  },
  {
   "property": "C42",
   "status": "proved",
   "theorems": [
    "C42_counts",
    "C42_shells",
    "C42_diamond",
    "C42_too_few",
    "C42_without_search"
   ],
   "note": "Counts for any arithmetic and history; shell labels; diamond labels from the second neighbours over the reals; failure cases."
  },
  {
   "property": "C43",
   "status": "partial",
   "theorems": [
    "C43_value",
    "C43_bounds",
    "C43_never_negative",
    "C43_rotation",
    "C43_few_atoms_refuted"
   ],
   "note": "Over the reals the value is the smallest sum over nmax/2 pairs, at most that of every pairing, 0 for opposite neighbours and unchanged by rotations; never negative in double precision too. REFUTED for small systems: with fewer than nmax candidates the code reads outside the list (undefined behaviour)."
  },
  {
   "property": "C44",
   "status": "partial",
   "theorems": [
    "C44_value",
    "C44_tetrahedral",
    "C44_ghost_neighbour",
    "C44_small_systems_refuted"
   ],
   "note": "Proved over the reals for every call that returns: six terms over the four nearest neighbours, never negative, 0 iff all six angles are tetrahedral. REFUTED for systems under 200 atoms: a ghost neighbour raises IndexError."
  },
  {
   "property": "C45",
   "status": "partial",
   "theorems": [
    "C45_bins",
    "C45_total",
    "C45_counted",
    "C45_call",
    "C45_total_refuted"
   ],
   "note": "Proved over the reals. REFUTED in double precision: opposite neighbours can have a computed cosine below -1 and are then in no bin (24 of the 28 pairs in bcc). Exact count for any arithmetic."
  },
  {
   "property": "C46",
   "status": "partial",
   "theorems": [
    "C46_sro",
    "C46_range",
    "C46_pmsro",
    "C46_type_numbers_refuted",
    "C46_type_count_refuted"
   ],
   "note": "Values, range, averages and error cases over the reals for types 1 and 2 (calculate_sro) and types 1..n (calculate_pmsro). REFUTED for other type numbers: the counts are indexed by the type number."
  },
  {
   "property": "C47",
   "status": "partial",
   "theorems": [
    "C47_trapezoid",
    "C47_value",
    "C47_no_radius",
    "C47_always_too_large",
    "C47_refuted"
   ],
   "note": "REFUTED: the integration leaves out the last interior grid point, so values are too large unless g = 1 there; with local=True all atoms get the density of the first atom. Exact characterisation of all values and averages over the reals."
  },
  {
   "property": "C48",
   "status": "partial",
   "theorems": [
    "C48_value",
    "C48_bad_q",
    "C48_refuted"
   ],
   "note": "REFUTED: the loop uses the slot number instead of the neighbour and accumulates over slots. Exact characterisation of the stored values and averages over the reals; they are never negative; q outside 2..12 is refused."
  },
  {
   "property": "C49",
   "status": "partial",
   "theorems": [
    "C49_histogram",
    "C49_all_pairs",
    "C49_small_systems_refuted"
   ],
   "note": "Proved over the reals for all stored atoms; with the default limit every pair is counted. REFUTED for systems under 200 atoms: pairs of ghosts are counted, the normalisation is that of the real atoms."
  },
  {
   "property": "C50",
   "status": "partial",
   "theorems": [
    "C50_counts",
    "C50_total_one",
    "C50_fractions_refuted"
   ],
   "note": "REFUTED: the values are numbers of atoms, not fractions. Proved: one positive count per type present, adding up to the number of real atoms."
  },
  {
   "property": "C51",
   "status": "proved",
   "theorems": [
    "C51_atoms",
    "C51_one_cell",
    "C51_errors",
    "C51_lattice"
   ],
   "note": "Number, ids, indices and stoichiometry for any arithmetic (IEEE included) and any noise; positions on the lattice sites, inside the box and distinct over the reals. The code knows eight structure names, the property says nine. A repetition list shorter than three raises IndexError."
  },
  {
   "property": "C52",
   "status": "partial",
   "theorems": [
    "C52_coordination",
    "C52_bcc_fcc",
    "C52_coordination_refuted"
   ],
   "note": "REFUTED for sc crystals of more than 2300 atoms that are less than three cutoffs wide: the cell grid has two cells in that direction and neighbours are listed twice (witness 3 x 3 x 256). Proved over the reals for all repetitions >= 3 and all lattice constants when there are at most 2300 atoms (ghost padding included), and for larger crystals that are three cutoffs wide with a cutoff of at least 1e-6, which for bcc and fcc needs no width condition."
  },
  {
   "property": "C53",
   "status": "partial",
   "theorems": [
    "C53_round_trip_real",
    "C53_round_trip_double",
    "C53_key_refuted",
    "C53_blank_refuted",
    "C53_empty_refuted"
   ],
   "note": "REFUTED for all custom keys: a key named like a standard column replaces it when reading, a value with a blank is cut, and the file of a system without atoms cannot be read. Proved at character level for all other systems, keys (distinct words that are not standard names) and values that are words: same atoms, ids, types and order, custom texts equal, positions and box lengths equal to six decimals, over the reals for the whole system and for IEEE doubles (nearest double to the nearest six decimal number) for the file read."
  },
  {
   "property": "C54",
   "status": "partial",
   "theorems": [
    "C54_split",
    "C54_short",
    "C54_crlf_refuted"
   ],
   "note": "Proved for all files without carriage returns: one file per complete snapshot, contents exactly its lines, distinct names, nothing lost or repeated; fewer than four lines raise NameError. REFUTED for files with CR LF line ends, which are rewritten with LF."
  },
  {
   "property": "C55",
   "status": "proved",
   "theorems": [
    "C55_blocks",
    "C55_errors",
    "C55_outside",
    "C55_negative",
    "C55_negative_refuted"
   ],
   "note": "All files. For block numbers 0 <= i < nblocks the lines are those of the i-th snapshot, and the blocks concatenate to the complete part of the file (C55_blocks). Opening errors and numbers outside that range are characterised; negative numbers address the right block only without stray lines (C55_negative, C55_negative_refuted)."
  },
  {
   "property": "C56",
   "status": "partial",
   "theorems": [
    "C56_slice",
    "C56_add",
    "C56_expression",
    "C56_sum",
    "C56_operand_refuted",
    "C56_self_refuted"
   ],
   "note": "REFUTED in part: adding always alters the left operand (C56_operand_refuted) and adding an object to itself never ends (C56_self_refuted). Proved: slices select what Python slicing selects, sums and arbitrary expressions over different objects list the snapshots from left to right, sum() works."
  },
  {
   "property": "C57",
   "status": "partial",
   "theorems": [
    "C57_ascending",
    "C57_random",
    "C57_all",
    "C57_unknown",
    "C57_ascending_refuted",
    "C57_descending_refuted",
    "C57_descending_system_refuted"
   ],
   "note": "REFUTED in part: descending starts with a block that does not exist and omits the first one; ascending yields non-existing blocks if more are asked for than exist. Proved for ascending and random order otherwise (random.shuffle is any permutation)."
  },
  {
   "property": "C58",
   "status": "partial",
   "theorems": [
    "C58_unloaded",
    "C58_load",
    "C58_loaded_data",
    "C58_export",
    "C58_integers",
    "C58_blocks_back",
    "C58_timestep_refuted",
    "C58_ids_only_refuted",
    "C58_no_ids_refuted",
    "C58_single_refuted",
    "C58_edit_lost_refuted"
   ],
   "note": "REFUTED in part: a loaded block is written with time step 0, without atoms if it only has id and type, not at all without id and type; a block of one atom cannot be loaded. Proved: unloaded blocks are written byte for byte after any history; loaded data with ids or types and another column is preserved (numbers whose text reads back; ids and types integers)."
  },
  {
   "property": "C59",
   "status": "proved",
   "theorems": [
    "C59_poscar_real",
    "C59_poscar_double"
   ],
   "note": "All systems of reals and of IEEE doubles: the file exists, its lines are the title, the scale, the box, the counts by increasing type and one coordinate line per atom; the order is a permutation sorted by type that keeps the order within each type, and the numbers read back to 14 decimals."
  },
  {
   "property": "C60",
   "status": "proved",
   "theorems": [
    "C60_read",
    "C60_sorted",
    "C60_mdtraj",
    "C60_system",
    "C60_back",
    "C60_list",
    "C60_errors"
   ],
   "note": "All lists of symbols, any arithmetic. Converting back gives the ASE object itself, from the dictionaries of the atoms or from the sorted list. Also proved for mdtraj objects; missing or wrong lists are rejected. ASE objects have as many symbols as positions."
  },
  {
   "property": "C61",
   "status": "partial",
   "theorems": [
    "C61_counts",
    "C61_real",
    "C61_bounds",
    "C61_at_least_refuted",
    "C61_exponent_refuted"
   ],
   "note": "Proved for all cells, any arithmetic: entries count faces by the number of edges that exceed the cutoff, among faces whose weight exceeds the area cutoff; not negative, sum at most the number of faces. REFUTED as documented: 'at least' is a strict comparison, and the area share is of area^voroexp. Search without filter; at most 300 faces per cell; for a triclinic cell that gets embedded the 27 copies are searched and each has its record."
  },
  {
   "property": "C62",
   "status": "proved",
   "theorems": [
    "C62_surface_flag"
   ],
   "note": ""
  },
  {
   "property": "C63",
   "status": "proved",
   "theorems": [
    "C63_rotation_invariant"
   ],
   "note": ""
  },
  {
   "property": "C64",
   "status": "partial",
   "theorems": [
    "C64_read_fails",
    "C64_write_fails",
    "C64_formats_refuted"
   ],
   "note": "REFUTED: for every such format reading raises TypeError even if ASE succeeds, because warnings.info does not exist; writing leaves the file and then raises TypeError."
  },
  {
   "property": "C65",
   "status": "partial",
   "theorems": [
    "C65_second_list",
    "C65_convert_refuted",
    "C65_known"
   ],
   "note": "REFUTED: the species are stored in the dictionaries of the atoms of the system, and every later conversion ignores its list (C65_second_list, for all systems). Proved when all atoms know their species: nothing changes."
  },
  {
   "property": "C66",
   "status": "proved",
   "theorems": [
    "C66_average",
    "C66_between"
   ],
   "note": "On the reals; search without filter, including the embedding of a triclinic cell, voro++ returns a cell for each atom searched. Any arithmetic: voronoi_run."
  },
  {
   "property": "C67",
   "status": "partial",
   "theorems": [
    "C67_appended",
    "C67_second_search",
    "C67_last_search_refuted"
   ],
   "note": "REFUTED: a search appends to the positions of the former ones (after two searches each is there twice). Proved: exactly the vertices are appended (an embedded triclinic cell included: the original atoms keep their places), so fresh atoms have the right ones."
  },
  {
   "property": "C68",
   "status": "partial",
   "theorems": [
    "C68_tight_box",
    "C68_distances_unchanged",
    "C68_atoms_in_box_refuted"
   ],
   "note": "REFUTED: atoms of the cell can lie outside the new box, which starts at the origin while the cell may extend to negative coordinates. Proved on the reals: the new sides are those of the tightest cuboid of a copy of the cell; atoms, triclinic flag and distances do not change."
  },
  {
   "property": "C69",
   "status": "partial",
   "theorems": [
    "C69_atoms_in_box",
    "C69_edges",
    "C69_same_crystal",
    "C69_same_crystal_refuted",
    "C69_box_left_scaled",
    "C69_system_unchanged_refuted",
    "C69_double_face_refuted"
   ],
   "note": "REFUTED: sides join atoms of the same type, not equivalent atoms, so the result need not repeat to the same crystal; the box of the system is left scaled (distances change); on doubles an atom can lie on the upper face. Proved on the reals: sides and errors exactly, atoms in the box, and the same crystal if the first atom is the only one of its type in the cell and the repetition covers the result."
  },
  {
   "property": "C70",
   "status": "partial",
   "theorems": [
    "C70_reported",
    "C70_ghost_neighbour",
    "C70_direct",
    "C70_orthogonal_box",
    "C70_planar_refuted",
    "C70_direct_refuted",
    "C70_small_cell_refuted"
   ],
   "note": "REFUTED: the four nearest neighbours may lie in a plane; direct coordinates divide by differences of box vector components, so in every orthogonal box ZeroDivisionError as soon as an atom is found; neighbours among the ghosts of a small cell give IndexError. Proved on the reals: exactly the atoms with four four-edged faces and four nearest neighbours are reported, with type, volume and position (all neighbours real; an embedded triclinic cell included)."
  },
  {
   "property": "C71",
   "status": "partial",
   "theorems": [
    "C71_groups",
    "C71_pairing_refuted"
   ],
   "note": "REFUTED: volumes and fingerprints are sorted separately, so a line can join the volume of one environment with the fingerprint of another. Proved on the reals: the volumes with their counts, the fingerprints, the mismatch flag, and that lines belong together if larger volumes have alphabetically later fingerprints (an embedded triclinic cell included)."
  },
  {
   "property": "C72",
   "status": "partial",
   "theorems": [
    "C72_mean",
    "C72_ghost_neighbour",
    "C72_on_the_fly",
    "C72_on_the_fly_refuted",
    "C72_small_cell_refuted"
   ],
   "note": "REFUTED: neighbours found by the call itself are not used and are lost; with neighbours among the ghosts of a small cell IndexError. Proved on the reals for neighbours found before and all in the list. LAMMPS energies are an input."
  },
  {
   "property": "C73",
   "status": "partial",
   "theorems": [
    "C73_reads_back",
    "C73_kept",
    "C73_neighbors",
    "C73_per_neighbor",
    "C73_new",
    "C73_refused",
    "C73_ignored",
    "C73_refuted",
    "C73_memory_refuted",
    "C73_bonds_refuted"
   ],
   "note": "REFUTED: assignments to neighbor_distance, neighbor_vector, local_angles and sij are accepted and ignored; neighbours assigned to a new atom have vectors and angles from uninitialised memory, and thirteen attributes (condition, mask, cutoff, volume, ...) have no default; the attribute bonds is bound twice, so the number of solid bonds cannot be read. Proved for all histories of assignments and all number systems: every other attribute reads back, weights and face data if they are given for all neighbours."
  },
  {
   "property": "C74",
   "status": "partial",
   "theorems": [
    "C74_large",
    "C74_small",
    "C74_small_again",
    "C74_searches_compute",
    "C74_ghosts_dropped",
    "C74_small_refuted",
    "C74_dangling_refuted"
   ],
   "note": "REFUTED: most analyses end by storing the real atoms again. Below 200 atoms all ghosts are replaced by new ones without neighbours and with uninitialised conditions, so calculate_chiparams before calculate_q makes q_2 depend on memory and the averaged q_2 nan (216-atom run in double precision). A triclinic cell of 200 or more atoms loses the ghosts of its Voronoi search, and calculate_q then reads outside the array. Proved for all number systems: from 200 atoms on without ghosts nothing changes; below 200 atoms exactly the ghosts are replaced, each by one of the same id, type, coordinates and flag."
  },
  {
   "property": "C75",
   "status": "partial",
   "theorems": [
    "C75_unfiltered",
    "C75_filtered",
    "C75_nobody",
    "C75_pressed",
    "C75_cell",
    "C75_inside",
    "C75_triclinic",
    "C75_filter_refuted",
    "C75_twice_refuted",
    "C75_origin_refuted",
    "C75_small_refuted",
    "C75_triclinic_refuted"
   ],
   "note": "REFUTED: with a filter the m-th atom drawn has the colour of the m-th atom of the whole list; every further press of the button adds another cloud with all atoms; with another origin some lines end at corners of the unshifted cell; systems of less than 200 atoms are remapped into the enlarged box and triclinic ones to within half a cell of the corner, so atoms are drawn outside the drawn cell. Proved: without filter every atom is drawn once, at its remapped position and with its own colour (any arithmetic, any attribute values); which atoms pass and which colours are stored with a filter; IndexError if nobody passes; the figure after any number of presses; the lines drawn for the cell of a system are exactly its twelve edges; atoms of a rectangular box without padding are drawn inside it; triclinic atoms at a lattice translate with fractional coordinates between -1/2 and 1/2."
  },
  {
   "property": "C76",
   "status": "partial",
   "theorems": [
    "C76_by_number",
    "C76_numbered",
    "C76_unnumbered",
    "C76_no_potential",
    "C76_dictionary",
    "C76_commands",
    "C76_default_refuted",
    "C76_refuted"
   ],
   "note": "REFUTED: energies are looked up by the id of an atom, but the file that LAMMPS reads numbers the atoms by their place in the list, so atoms whose ids are in another order get each other's energies, and other ids are a KeyError that leaves the temporary file behind; the default species 'Au' counts as two species and always fails. Proved for any arithmetic and any order in which LAMMPS returns the atoms: an atom gets the energy of the atom whose place is its id, hence its own if the ids are 1, 2, ... in order; a missing potential is a ValueError with the file left behind. For repeated ids the last energy counts (C76_dictionary); LAMMPS gets the given style and coefficients, in order (C76_commands). Assumes the numbering of ASE and LAMMPS (libraries_ok)."
  },
  {
   "property": "C77",
   "status": "partial",
   "theorems": [
    "C77_only_cutoffs",
    "C77_mean",
    "C77_reach",
    "C77_isolated",
    "C77_refuted"
   ],
   "note": "REFUTED for atoms without neighbours: their cutoff is 0/0, no number in doubles, whatever the factor, and no distance is within it. Proved: nothing but the cutoffs changes (any arithmetic); an atom with neighbours gets factor times the mean of their distances, which lies between factor times two of them and with a factor of at least one reaches one of them (exact reals)."
  },
  {
   "property": "C78",
   "status": "partial",
   "theorems": [
    "C78_values",
    "C78_meaningless",
    "C78_parameter",
    "C78_unknown_refuted"
   ],
   "note": "REFUTED for the exception: an unknown key that begins with q or aq, such as 'quality', is a ValueError, and the empty key an IndexError, not the AttributeError of the other unknown keys. Proved for any arithmetic and any attributes: keys with a meaning give their values in the order of the keys, the dictionary before an attribute before q2-q12 and aq2-aq12; which exception each other key raises."
  },
  {
   "property": "C79",
   "status": "proved",
   "theorems": [
    "C79_lists",
    "C79_range"
   ],
   "note": "Any arithmetic; ghost atoms are left out, orders outside 2-12 are a ValueError."
  },
  {
   "property": "C80",
   "status": "proved",
   "theorems": [
    "C80_neighbours",
    "C80_parameters",
    "C80_order_double"
   ],
   "note": "Cutoff method with all pairs (up to 2300 atoms), any cell. Exact reals for the vectors and the parameters; C80_order_double: neighbours and distances for IEEE doubles as computed, in any order (without a translation, which rounds: see C04_translation_double)."
  },
  {
   "property": "C81",
   "status": "proved",
   "theorems": [
    "C81_images",
    "C81_copies",
    "C81_parameters",
    "C81_values",
    "C81_averages",
    "C81_any_size",
    "C81_half_box",
    "C81_large_cutoff_refuted"
   ],
   "note": "Exact reals, orthogonal boxes, cutoff method. C81_large_cutoff_refuted: without the bound on the cutoff the claim is false, images are silently missing."
  },
  {
   "property": "C82",
   "status": "proved",
   "theorems": [
    "C82_neighbours",
    "C82_parameters",
    "C82_supercells"
   ],
   "note": "Exact reals, orthogonal boxes, cutoff method with all pairs (up to 2300 atoms on both sides), cutoffs up to half of both boxes as stored."
  },
  {
   "property": "C83",
   "status": "partial",
   "theorems": [
    "C83_spacing",
    "C83_triclinic",
    "C83_left_handed_refuted"
   ],
   "note": "REFUTED: in a left-handed triclinic cell the distance searched is negative, so no atom has a candidate neighbour and the number and adaptive methods cannot find any. Proved for orthogonal boxes, padded or not, and for right-handed triclinic cells. Exact reals."
  }
 ]
}