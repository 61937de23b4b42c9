{"id": "C01", "title": "Pair distance is a symmetric, non-negative quantity", "statement": "System.get_distance(a, b) is never negative, is 0 for an atom with itself, and get_distance(a, b) == get_distance(b, a), for orthogonal and for triclinic boxes; the symmetry holds for the double-precision value actually returned, not only for exact arithmetic.", "quantifier": "every pair of positions and every box (orthogonal with any side lengths, triclinic with any cell matrix), and for the floating-point clause every finite or infinite double", "why_tests_cant": "positions and boxes range over a continuum (and over all doubles, including exact half-box ties) - tests sample a few pairs", "anchors": ["src/pyscal/system.cpp: System::get_abs_distance(Atom,Atom)", "src/pyscal/core.py: System.get_distance"]}
{"id": "C02", "title": "Minimum image convention is the true minimum over all periodic images", "statement": "For an orthogonal box and atoms whose coordinates lie inside the box, get_distance(a, b) equals the smallest Euclidean distance between a and any periodic image of b.", "quantifier": "all positive box lengths, all pairs of positions inside the box, all (infinitely many) integer image shifts", "why_tests_cant": "the minimum is over infinitely many images and all real positions", "anchors": ["src/pyscal/system.cpp: System::get_abs_distance", "src/pyscal/core.py: System.get_distance"]}
{"id": "C03", "title": "Distance vectors are consistent with distances", "statement": "For an orthogonal box, the vector returned by get_distance(a, b, vector=True) differs from a.pos - b.pos by a whole number of box lengths in each direction, has every component at most half the box length for atoms inside the box, and its Euclidean length is exactly the returned distance; the internal distance routines used for neighbours agree with it up to the sign convention.", "quantifier": "all box lengths, all positions", "why_tests_cant": "continuum of positions; half-box ties and both wrap directions need separate cases", "anchors": ["src/pyscal/system.cpp: System::get_distance_vector", "src/pyscal/system.cpp: System::get_abs_distance", "src/pyscal/core.py: System.get_distance"]}
{"id": "C04", "title": "Distances do not depend on the choice of origin or of periodic image", "statement": "Translating every atom by the same vector never changes get_distance; moving one of two atoms inside the box by one box length along an axis does not change get_distance either. For atoms farther than 1.5 box lengths apart this is not guaranteed (a concrete pair is exhibited).", "quantifier": "all positions, all translation vectors, all box lengths", "why_tests_cant": "infinite family of translations; the failure needs an atom outside the tested range", "anchors": ["src/pyscal/system.cpp: System::get_abs_distance"]}
{"id": "C05", "title": "Periodic distance is a metric", "statement": "For an orthogonal box and atoms inside the box, get_distance(a, c) <= get_distance(a, b) + get_distance(b, c), and get_distance(a, b) == 0 only if a and b have the same position modulo the box.", "quantifier": "all triples of positions inside the box and all box lengths", "why_tests_cant": "a triangle inequality over a continuum of triples", "anchors": ["src/pyscal/system.cpp: System::get_abs_distance"]}
{"id": "C06", "title": "Triclinic distances use a lattice-equivalent image", "statement": "In a triclinic box the vector behind get_distance differs from the raw position difference by an integer combination of the box vectors and has fractional components of magnitude at most 1/2 (for atoms less than 1.5 cells apart); it is therefore a periodic image, but it need not be the closest one for strongly skewed boxes.", "quantifier": "all non-degenerate cell matrices, all positions with fractional separation at most 1.5", "why_tests_cant": "continuum of cells and positions; the non-minimal case only shows up for skewed cells", "anchors": ["src/pyscal/system.cpp: System::get_abs_distance (triclinic branch)", "src/pyscal/system.cpp: System::assign_triclinic_params", "src/pyscal/core.py: System.box setter"]}
{"id": "C07", "title": "A box is treated as triclinic exactly when it is not orthogonal", "statement": "Assigning System.box switches distance computations to triclinic treatment if and only if the box vectors are not mutually orthogonal, whatever boxes were assigned before.", "quantifier": "all boxes and all histories of box assignments", "why_tests_cant": "needs special cosines that cancel and histories with more than one box", "anchors": ["src/pyscal/core.py: System.box setter", "src/pyscal/system.cpp: System::assign_triclinic_params"]}
{"id": "C08", "title": "The box that was set is the box that is returned and used", "statement": "After sys.box = B, reading sys.box gives B and pair distances are computed with B, in every history of assignments.", "quantifier": "all histories of box and atoms assignments", "why_tests_cant": "needs a history in which a small atom list was assigned before the box is changed", "anchors": ["src/pyscal/core.py: System.box getter/setter", "src/pyscal/core.py: System.repeat", "src/pyscal/core.py: System.atoms setter"]}
{"id": "C09", "title": "Assigning atoms and reading them back gives the same atoms", "statement": "After sys.atoms = L (L non-empty, no ghosts), sys.atoms is L with the same atoms in the same order and sys.natoms == len(L), whether or not ghost atoms were added internally.", "quantifier": "all non-empty atom lists of any length, all boxes with non-zero entry sum", "why_tests_cant": "list length is unbounded and the code path changes at 200 atoms", "anchors": ["src/pyscal/core.py: System.atoms setter", "src/pyscal/system.cpp: System::set_atoms", "src/pyscal/system.cpp: System::get_atoms"]}
{"id": "C10", "title": "Small systems are padded to at least 200 atoms with exact periodic copies", "statement": "For a list of 1..199 atoms the total number of atoms handled after sys.atoms = L is at least 200, every additional atom is flagged ghost and is a copy of a listed atom displaced by an integer combination of the box vectors, and every such image within the repetition range occurs exactly once.", "quantifier": "all list lengths 1..199, all atom positions and boxes", "why_tests_cant": "ranges over all list sizes and positions, with a rounded cube root in the middle", "anchors": ["src/pyscal/core.py: System.atoms setter", "src/pyscal/core.py: System.repeat"]}
{"id": "C11", "title": "repeat() creates exactly the requested copies", "statement": "repeat((rx,ry,rz)) yields n*(2rx+1)*(2ry+1)*(2rz+1) atoms: the originals first and unchanged, then for each non-zero shift and each original one copy with the same type, displaced by that combination of box vectors, and ids that continue from n+1 without a repeat; the box used for distances is scaled by (2r+1) in each direction.", "quantifier": "all repetition counts, all atom lists, all boxes", "why_tests_cant": "unbounded repetition counts and atom lists", "anchors": ["src/pyscal/core.py: System.repeat"]}
{"id": "C12", "title": "Atom counters always match the stored atoms", "statement": "After any sequence of assigning and adding atoms, the reported number of real atoms and of all atoms equals the number of stored real and stored atoms, and sys.atoms returns real atoms only.", "quantifier": "all sequences of container operations with any mix of real and ghost atoms", "why_tests_cant": "quantifies over operation histories; the failing case needs ghosts added to a ghost-free system", "anchors": ["src/pyscal/system.cpp: System::add_atoms", "src/pyscal/system.cpp: System::set_atoms", "src/pyscal/system.cpp: System::get_atoms", "src/pyscal/core.py: System.add_atoms"]}
{"id": "C13", "title": "Writing back an unmodified atom changes nothing", "statement": "sys.set_atom(sys.get_atom(i)) leaves the system unchanged for every valid i, for atoms from make_crystal, from ASE objects and from LAMMPS dump files.", "quantifier": "all systems and all valid indices, by origin of the atoms", "why_tests_cant": "depends on an index stored inside each atom by each reader; must hold for every index", "anchors": ["src/pyscal/core.py: System.get_atom", "src/pyscal/core.py: System.set_atom", "src/pyscal/system.cpp: System::satom", "src/pyscal/formats/lammps.py: read_snap", "src/pyscal/crystal_structures.py: make_crystal"]}
{"id": "C14", "title": "remap_atoms puts atoms in the box and removes near-duplicates", "statement": "remap_atoms moves atoms lying within one box length of the cell to positions in [0, L] (half-open except at rounding) that differ by whole box lengths, and with duplicate removal leaves no two atoms closer than the tolerance while never removing all atoms.", "quantifier": "all boxes, atom lists, positions and tolerances", "why_tests_cant": "removal is decided pairwise over all pairs; chains of near-duplicates of any length", "anchors": ["src/pyscal/system.cpp: System::remap_atom", "src/pyscal/core.py: System.remap_atoms"]}
{"id": "C15", "title": "Cutoff neighbours are exactly the atoms closer than the cutoff", "statement": "After find_neighbors(method='cutoff', cutoff=r) with r>0 in a system below the cell-list size, j is in atom i's neighbour list if and only if j != i and the periodic distance is < r; each neighbour is listed once with its distance and connecting vector.", "quantifier": "all atom configurations (any number of atoms), all boxes, all cutoffs, any arithmetic including IEEE doubles", "why_tests_cant": "all configurations; tests use perfect lattices", "anchors": ["src/pyscal/system.cpp: System::get_all_neighbors_normal", "src/pyscal/core.py: System.find_neighbors"]}
{"id": "C16", "title": "Cutoff neighbour relation is symmetric with mirrored vectors", "statement": "After the cutoff method, j is a neighbour of i iff i is a neighbour of j, with the same distance, opposite vectors and unit weights; no atom neighbours itself.", "quantifier": "all configurations, boxes and cutoffs", "why_tests_cant": "all configurations", "anchors": ["src/pyscal/system.cpp: System::get_all_neighbors_normal", "src/pyscal/system.cpp: System::get_all_neighbors_cells"]}
{"id": "C17", "title": "Type filters are respected", "statement": "With filter='type' only atoms of the same type, and with filter='type_r' only atoms of a different type, become neighbours, for every neighbour-finding method that accepts the filter.", "quantifier": "all configurations, all type assignments, every method", "why_tests_cant": "needs all type patterns for each of five methods", "anchors": ["src/pyscal/system.cpp: get_all_neighbors_normal, get_all_neighbors_cells, get_all_neighbors_adaptive, get_all_neighbors_sann, get_all_neighbors_bynumber, get_all_neighbors_voronoi", "src/pyscal/core.py: System.find_neighbors"]}
{"id": "C18", "title": "Cell lists give the same neighbours as brute force", "statement": "The cell-list search used for large systems finds exactly the same neighbours as the all-pairs search for orthogonal boxes at least three cutoffs wide in each direction and atoms within one box length of the cell.", "quantifier": "all configurations, boxes and cutoffs satisfying the size condition", "why_tests_cant": "systems above 2300 atoms with arbitrary positions; boundary of cells", "anchors": ["src/pyscal/system.cpp: System::set_up_cells, cell_index, cell_periodic, get_all_neighbors_cells", "src/pyscal/core.py: System.find_neighbors (usecells)"]}
{"id": "C19", "title": "Number method returns exactly the nearest atoms", "statement": "find_neighbors(method='number', nmax=k) either reports failure or gives every atom exactly k distinct neighbours in order of distance such that no other atom is closer than the farthest of them.", "quantifier": "all configurations, all k, any order in which an unstable sort leaves ties", "why_tests_cant": "all configurations, including ties, and all k", "anchors": ["src/pyscal/system.cpp: System::get_all_neighbors_bynumber", "src/pyscal/core.py: System.find_neighbors"]}
{"id": "C20", "title": "Adaptive cutoff neighbours follow the definition", "statement": "find_neighbors(cutoff='adaptive') gives each atom as neighbours exactly the candidate atoms closer than padding times the mean distance of its nlimit nearest atoms; failure is reported when fewer than nlimit candidates exist.", "quantifier": "all configurations, padding and nlimit values", "why_tests_cant": "all configurations", "anchors": ["src/pyscal/system.cpp: System::get_all_neighbors_adaptive", "src/pyscal/core.py: System.find_neighbors"]}
{"id": "C21", "title": "SANN neighbours are the m nearest atoms satisfying the SANN condition", "statement": "find_neighbors(cutoff='sann') gives each atom its m nearest atoms, m being the smallest number >= 3 with sum of the m nearest distances/(m-2) < distance of the (m+1)th, or reports failure, and never reads outside the candidate list.", "quantifier": "all configurations", "why_tests_cant": "the loop reads one past its index: only configurations with particular shell sizes expose it", "anchors": ["src/pyscal/system.cpp: System::get_all_neighbors_sann"]}
{"id": "C22", "title": "Neighbour storage is never overrun", "statement": "No find_neighbors call writes outside an atom's neighbour storage, whatever the cutoff.", "quantifier": "all configurations and cutoffs", "why_tests_cant": "memory safety for every density and cutoff; tests never have more than a few dozen neighbours", "anchors": ["src/pyscal/system.cpp: System::get_all_neighbors_normal", "src/pyscal/atom.h: MAXNUMBEROFNEIGHBORS"]}
{"id": "C23", "title": "find_neighbors does not depend on earlier neighbour searches", "statement": "The neighbour lists after find_neighbors depend only on positions, types, box and arguments, not on previous find_neighbors or reset_neighbors calls.", "quantifier": "all histories of find_neighbors calls with any methods and arguments", "why_tests_cant": "all call histories", "anchors": ["src/pyscal/core.py: System.find_neighbors", "src/pyscal/system.cpp: System::reset_all_neighbors"]}
{"id": "C24", "title": "Invalid find_neighbors arguments are rejected", "statement": "find_neighbors raises on an unknown method or invalid threshold and does not report neighbours as found; with valid arguments success or failure is reported truthfully.", "quantifier": "all argument combinations and systems", "why_tests_cant": "all argument combinations", "anchors": ["src/pyscal/core.py: System.find_neighbors"]}
{"id": "C25", "title": "Steinhardt parameters equal their definition", "statement": "For q in 2..12, calculate_q(q) stores for each atom q_l = sqrt(4 pi/(2l+1) * sum_m |mean over neighbours of Y_lm|^2), with spherical harmonics given by the associated Legendre functions and normalised by the weights.", "quantifier": "all neighbour environments without coincident atoms, all weights, every l in 2..12", "why_tests_cant": "continuum of environments and the numerically delicate recursion for P_lm", "anchors": ["src/pyscal/system.cpp: System::PLM, YLM, QLM, dfactorial, calculate_q", "src/pyscal/core.py: System.calculate_q"]}
{"id": "C26", "title": "Steinhardt parameters are rotation invariant", "statement": "Rotating (or reflecting) all neighbour vectors of an atom leaves q_l and averaged q_l unchanged for every l in 2..12.", "quantifier": "all orthogonal transformations, all neighbour environments, all weights, l = 2..12", "why_tests_cant": "continuum of rotations; the value is computed from angles that all change under rotation", "anchors": ["src/pyscal/system.cpp: System::calculate_q, calculate_aq", "src/pyscal/core.py: System.calculate_q"]}
{"id": "C27", "title": "Steinhardt parameters lie between 0 and 1", "statement": "For non-negative weights with positive sum, 0 <= q_l <= 1 for every l in 2..12, with q_l = 1 for an atom with a single neighbour; the same bound holds for averaged values.", "quantifier": "all environments and weights", "why_tests_cant": "an inequality over all environments", "anchors": ["src/pyscal/system.cpp: System::calculate_q, calculate_aq"]}
{"id": "C28", "title": "Steinhardt parameters do not depend on neighbour order or on the scale of weights", "statement": "Permuting the neighbour list, scaling all neighbour vectors by positive factors, or (for non-Voronoi neighbours) multiplying all weights by a positive constant does not change q_l; inverting the environment does not change it either.", "quantifier": "all permutations, all scale factors, all environments", "why_tests_cant": "all permutations and scale factors", "anchors": ["src/pyscal/system.cpp: System::calculate_q"]}
{"id": "C29", "title": "Only q values 2 to 12 are accepted", "statement": "calculate_q, get_qvals, get_q and set_q reject any q outside 2..12 and set_q followed by get_q returns the stored value without changing the others.", "quantifier": "all integers q, all stored values, all sequences of set_q", "why_tests_cant": "all integers, all histories", "anchors": ["src/pyscal/core.py: System.calculate_q, get_qvals", "src/pyscal/atom.cpp: gq_big, sq_big, sq, gq"]}
{"id": "C30", "title": "q depends only on the current neighbours", "statement": "After any sequence of find_neighbors calls, calculate_q gives the weight-normalised value for the neighbours currently stored.", "quantifier": "all histories of find_neighbors and calculate_q calls", "why_tests_cant": "a Voronoi search earlier in the history changes later results", "anchors": ["src/pyscal/system.cpp: System::get_all_neighbors_adaptive, get_all_neighbors_voronoi, calculate_q"]}
{"id": "C31", "title": "Bond order correlation s_ij is symmetric and bounded", "statement": "The s_ij value of two atoms lies in [-1, 1], equals that of the swapped pair, and is 1 for an atom with itself, whenever both atoms have non-zero q components.", "quantifier": "all q-component vectors of any q", "why_tests_cant": "Cauchy-Schwarz over all real component vectors", "anchors": ["src/pyscal/system.cpp: System::get_number_from_bond"]}
{"id": "C32", "title": "Solid bonds are the neighbours whose s_ij passes the threshold", "statement": "find_solids counts for each atom exactly the neighbours with s_ij above (or, with right=False, below) the threshold.", "quantifier": "all s_ij values and thresholds", "why_tests_cant": "existing tests pass because the average criterion masks the count", "anchors": ["src/pyscal/system.cpp: System::calculate_frenkel_numbers", "src/pyscal/core.py: System.find_solids"]}
{"id": "C33", "title": "Solid classification is the documented conjunction of criteria and is monotone", "statement": "An atom is solid exactly when its bond count (or bond fraction) exceeds bonds and its average s_ij exceeds avgthreshold; raising bonds or avgthreshold never turns a non-solid atom into a solid one; invalid thresholds are rejected before anything is computed.", "quantifier": "all atoms, neighbour counts and thresholds", "why_tests_cant": "all thresholds; monotonicity relates pairs of runs", "anchors": ["src/pyscal/system.cpp: System::find_solid_atoms", "src/pyscal/core.py: System.find_solids"]}
{"id": "C34", "title": "Clusters are the connected components", "statement": "After cluster_atoms with a symmetric neighbour relation, two selected atoms have the same cluster id if and only if they are linked by a chain of selected neighbouring atoms within the cutoff; atoms not selected have no cluster.", "quantifier": "all neighbour graphs of any size, all selections, all cutoffs", "why_tests_cant": "graph reachability over all graphs", "anchors": ["src/pyscal/system.cpp: System::find_clusters_recursive, harvest_cluster", "src/pyscal/core.py: System.cluster_atoms"]}
{"id": "C35", "title": "Cluster ids are 1..k and the largest cluster size is right", "statement": "Cluster ids are consecutive from 1 in order of their first atom, and the returned size is the number of atoms of a cluster no other cluster exceeds (0 if there is none).", "quantifier": "all neighbour graphs and selections", "why_tests_cant": "all graphs", "anchors": ["src/pyscal/system.cpp: System::find_clusters_recursive, largest_cluster", "src/pyscal/core.py: System.cluster_atoms, find_solids"]}
{"id": "C36", "title": "The largest_cluster flag marks exactly the atoms of the largest cluster", "statement": "After cluster_atoms(largest=True) an atom has largest_cluster set iff it belongs to the largest cluster; in particular no atom is flagged when nothing satisfies the condition.", "quantifier": "all neighbour graphs and selections, all histories", "why_tests_cant": "the failing case is the empty selection in a fresh system", "anchors": ["src/pyscal/system.cpp: System::largest_cluster, get_largest_cluster_atoms", "src/pyscal/core.py: System.cluster_atoms"]}
{"id": "C37", "title": "Clusters are connected across periodic boundaries", "statement": "Two selected atoms that are periodic neighbours are in the same cluster, for systems of any size.", "quantifier": "all systems, including those with fewer than 200 atoms", "why_tests_cant": "small systems go through ghost atoms, which the cluster search skips", "anchors": ["src/pyscal/system.cpp: System::harvest_cluster", "src/pyscal/core.py: System.atoms setter"]}
{"id": "C38", "title": "Clustering always terminates and uses each atom once", "statement": "The cluster search ends for every neighbour graph (including asymmetric, cyclic or self-referring ones) and visits each selected real atom exactly once.", "quantifier": "all directed graphs", "why_tests_cant": "termination over all graphs", "anchors": ["src/pyscal/system.cpp: System::harvest_cluster"]}
{"id": "C39", "title": "CNA assigns exactly one structure to each atom and counts add up", "statement": "The counts returned by calculate_cna for others, fcc, hcp, bcc and ico are the numbers of atoms with the corresponding structure value and add up to the number of atoms.", "quantifier": "all configurations", "why_tests_cant": "all configurations and tie orders", "anchors": ["src/pyscal/core.py: System.calculate_cna", "src/pyscal/system.cpp: System::calculate_cna, identify_cn12, identify_cn14"]}
{"id": "C40", "title": "CNA labels follow the common-neighbour signatures", "statement": "An atom is labelled fcc iff its 12 bonds all have signature 4-2-1, hcp iff six have 4-2-1 and six 4-2-2, ico iff all twelve have 5-5-5, and bcc (14 neighbours) iff six have 4-4-4 and eight 6-6-6, where the first two indices are the numbers of common neighbours and of bonds among them; the labels are mutually exclusive and do not depend on the order of neighbours.", "quantifier": "all neighbour graphs, all neighbour orders", "why_tests_cant": "all bond graphs", "anchors": ["src/pyscal/system.cpp: System::get_common_neighbors, get_common_bonds, identify_cn12, identify_cn14"]}
{"id": "C41", "title": "Calling calculate_cna again gives the same answer", "statement": "Two consecutive calls of calculate_cna (or a call after another neighbour search) on an unchanged system return the same result as a call on a fresh system.", "quantifier": "all systems and call histories", "why_tests_cant": "tests call it once per system", "anchors": ["src/pyscal/system.cpp: System::calculate_cna, get_all_neighbors_bynumber", "src/pyscal/core.py: System.calculate_cna"]}
{"id": "C42", "title": "Diamond identification counts add up", "statement": "identify_diamond returns counts that add up to the number of atoms, every cubic (hexagonal) diamond neighbour shell label is only given to an atom that is not itself diamond and has a diamond atom among its four nearest (second shell: among its first-shell neighbours).", "quantifier": "all configurations", "why_tests_cant": "all configurations", "anchors": ["src/pyscal/system.cpp: System::identify_cndia, identify_diamond_structure", "src/pyscal/core.py: System.identify_diamond"]}
{"id": "C43", "title": "Centrosymmetry is non-negative, zero for inversion-symmetric shells and minimal over pairings", "statement": "The centrosymmetry parameter is never negative, is 0 if the nmax nearest atoms come in pairs opposite to each other, never exceeds the value of any perfect pairing of the neighbours, and is unchanged by rotation of the environment.", "quantifier": "all environments and all even nmax", "why_tests_cant": "all environments; minimum over exponentially many pairings", "anchors": ["src/pyscal/system.cpp: System::calculate_centrosymmetry_atom", "src/pyscal/core.py: System.calculate_centrosymmetry"]}
{"id": "C44", "title": "Angular criterion is non-negative and detects tetrahedra exactly", "statement": "The angular criterion is the sum over the six pairs of four neighbours of (cos theta + 1/3)^2; it is 0 iff all six angles are tetrahedral.", "quantifier": "all environments with four neighbours not coincident with the atom", "why_tests_cant": "all environments", "anchors": ["src/pyscal/core.py: System.calculate_angularcriteria"]}
{"id": "C45", "title": "Chi parameters count every neighbour pair once", "statement": "The nine chi parameter bins partition [-1, 1] and their counts add up to n(n-1)/2 for an atom with n neighbours, with or without angles output.", "quantifier": "all environments without coincident atoms, any number of neighbours", "why_tests_cant": "all environments, including angles of exactly 0 or 180 degrees at bin edges", "anchors": ["src/pyscal/core.py: System.calculate_chiparams"]}
{"id": "C46", "title": "Short range order parameters have the documented value and range", "statement": "For each shell the Warren-Cowley value is 1 - (fraction of unlike neighbours)/(concentration of unlike atoms), is 1 when no unlike neighbour is present, 0 for ideal mixing, and its normalisation uses the concentration of the reference type.", "quantifier": "all compositions and neighbour counts, all type numberings", "why_tests_cant": "all compositions; wrong only for type numbers that are not 1..n", "anchors": ["src/pyscal/core.py: System.calculate_sro, calculate_pmsro"]}
{"id": "C47", "title": "Entropy integration is the trapezoidal rule with each atom's own density", "statement": "The entropy parameter integrates its integrand by the trapezoidal rule over all grid points, and with local=True uses the local density of each atom.", "quantifier": "all integrands, grids and systems", "why_tests_cant": "numerical tests use loose tolerances", "anchors": ["src/pyscal/atom.cpp: Atom::trapezoid_integration", "src/pyscal/system.cpp: System::entropy", "src/pyscal/core.py: System.calculate_entropy"]}
{"id": "C48", "title": "The disorder variable follows its definition", "statement": "calculate_disorder assigns each atom the mean over its neighbours of s_ii + s_jj - 2 s_ij (dot products of unnormalised q components), a non-negative number that is 0 iff all neighbours have the same components.", "quantifier": "all component vectors and neighbour lists", "why_tests_cant": "all neighbour lists; the code uses the loop index instead of the neighbour", "anchors": ["src/pyscal/system.cpp: System::calculate_disorder", "src/pyscal/core.py: System.calculate_disorder"]}
{"id": "C49", "title": "The radial distribution histogram counts every pair once", "statement": "Undoing the normalisation of calculate_rdf gives for each bin the number of pairs of atoms at that distance; the bins together count every pair in the range once.", "quantifier": "all configurations, bin counts and cutoffs", "why_tests_cant": "all configurations; small systems take a different path", "anchors": ["src/pyscal/core.py: System.calculate_rdf", "src/pyscal/system.cpp: System::get_pairdistances"]}
{"id": "C50", "title": "Concentrations add up to one", "statement": "get_concentration returns a positive fraction for each type present and the fractions add up to 1, being counts divided by the number of atoms.", "quantifier": "all non-empty systems and type assignments", "why_tests_cant": "all type assignments", "anchors": ["src/pyscal/core.py: System.get_concentration"]}
{"id": "C51", "title": "make_crystal builds the requested lattice", "statement": "make_crystal(structure, a, (nx,ny,nz)) without noise returns exactly basis*nx*ny*nz atoms with ids 1..N in order, distinct positions all inside the returned orthogonal box, and types in the stoichiometry of the structure; an unknown structure name raises ValueError.", "quantifier": "all nine structures, all repetition counts, all positive lattice constants", "why_tests_cant": "unbounded repetitions and real lattice constants", "anchors": ["src/pyscal/crystal_structures.py: make_crystal"]}
{"id": "C52", "title": "Perfect crystals have their crystallographic coordination", "statement": "For bcc, fcc and sc crystals from make_crystal with at least 3 repetitions, the cutoff method with a cutoff between the first and second shell gives every atom exactly 8, 12 and 6 neighbours.", "quantifier": "all repetitions >= 3 and all lattice constants", "why_tests_cant": "unbounded repetitions", "anchors": ["src/pyscal/crystal_structures.py: make_crystal", "src/pyscal/system.cpp: System::get_all_neighbors_normal"]}
{"id": "C53", "title": "Writing and reading a LAMMPS dump preserves the system", "statement": "Writing an orthogonal system with to_file(format='lammps-dump') and reading it back gives the same number of atoms with the same ids and types in the same order, positions and box lengths equal up to the six printed decimals, and custom columns preserved as text.", "quantifier": "all orthogonal systems, all ids, types and positions, all custom keys", "why_tests_cant": "all files; character-level formatting and parsing", "anchors": ["src/pyscal/formats/lammps.py: write_snap, read_snap"]}
{"id": "C54", "title": "Splitting a trajectory file loses and duplicates nothing", "statement": "split_snaps writes files whose concatenation, in order, is the trajectory file up to the last complete snapshot, each file being one snapshot.", "quantifier": "all files made of any number of equal-size snapshots, with any trailing incomplete snapshot", "why_tests_cant": "all files", "anchors": ["src/pyscal/formats/lammps.py: split_snaps"]}
{"id": "C55", "title": "Trajectory blocks partition the file", "statement": "Trajectory(filename) exposes nblocks = lines // (natoms + 9) blocks; get_block(i) is exactly the lines of the i-th snapshot, and the blocks in order concatenate to the complete part of the file.", "quantifier": "all files and all valid block indices", "why_tests_cant": "all files; byte offsets depend on every line length", "anchors": ["src/pyscal/trajectory.py: Trajectory.get_block, _get_natoms, __getitem__"]}
{"id": "C56", "title": "Slicing and adding time slices keeps snapshots in order", "statement": "traj[a:b:c] refers to the snapshots Python slicing selects; adding time slices lists the snapshots of the left operand followed by those of the right one, adding does not alter its operands, and sum() over slices works.", "quantifier": "all slices, all sequences of additions", "why_tests_cant": "all slices and aliasing patterns (a + a)", "anchors": ["src/pyscal/trajectory.py: Timeslice.__add__, __radd__, Trajectory.__getitem__"]}
{"id": "C57", "title": "Iterating over a trajectory visits existing snapshots only", "statement": "iter over the trajectory in ascending, descending or random order yields the requested number of distinct, existing snapshots.", "quantifier": "all trajectories, orders and requested numbers", "why_tests_cant": "all lengths; off-by-one only visible at the end points", "anchors": ["src/pyscal/trajectory.py: Trajectory (snapshot iteration)"]}
{"id": "C58", "title": "Exporting time slices reproduces the snapshots", "statement": "Timeslice.to_file writes the blocks unchanged if they are not loaded; loading a block and exporting it again preserves ids, types, the box, all atom columns and the time step.", "quantifier": "all trajectories and histories of load/unload", "why_tests_cant": "all files and histories", "anchors": ["src/pyscal/trajectory.py: Timeslice.to_file, Trajectory._convert_data_to_lines, load, unload"]}
{"id": "C59", "title": "POSCAR export lists every atom exactly once grouped by type", "statement": "The legacy POSCAR writer writes one coordinate line per atom, grouped by increasing type with the counts line giving the group sizes, each group in the original order.", "quantifier": "all systems and type assignments", "why_tests_cant": "all type assignments", "anchors": ["src/pyscal/formats/vasp.py: write_poscar"]}
{"id": "C60", "title": "ASE species and pyscal types are mapped consistently", "statement": "Reading from ASE assigns type t to the t-th symbol in sorted order, and converting back with that symbol list gives each atom its original symbol.", "quantifier": "all lists of chemical symbols", "why_tests_cant": "all symbol lists", "anchors": ["src/pyscal/formats/ase.py: read_snap, convert_snap"]}
{"id": "C61", "title": "Voronoi vectors count faces by number of edges", "statement": "calculate_vorovector counts faces with 3, 4, 5 and 6 edges whose edges all pass the edge and area cutoffs as documented; entries are non-negative and their sum does not exceed the number of faces.", "quantifier": "all Voronoi cells (any face list), all cutoffs", "why_tests_cant": "all polyhedra", "anchors": ["src/pyscal/core.py: System.calculate_vorovector"]}
{"id": "C62", "title": "The surface flag marks the atoms in contact with the liquid", "statement": "After cluster_atoms an atom has the surface flag set iff it is not solid or one of its neighbours is a real atom that is not solid.", "quantifier": "all systems, neighbour lists, conditions and solid flags", "why_tests_cant": "all neighbour graphs and flag assignments", "anchors": ["src/pyscal/system.cpp: System::get_largest_cluster_atoms"]}
{"id": "C63", "title": "Solid classification is invariant under rotation", "statement": "Turning all neighbour vectors of a system by an orthogonal matrix changes no s_ij value, bond count, average or solid flag found by find_solids.", "quantifier": "all systems, orthogonal matrices, degrees and thresholds", "why_tests_cant": "all real orthogonal matrices and neighbour environments; needs the addition theorem", "anchors": ["src/pyscal/system.cpp: System::calculate_frenkel_numbers", "src/pyscal/core.py: System.find_solids"]}
{"id": "C64", "title": "Other file formats are handled by ASE", "statement": "read_inputfile and to_file with a format other than the built-in ones read and write through ASE and succeed when ASE does; only formats ASE rejects raise TypeError.", "quantifier": "all formats, files, systems and behaviours of ASE", "why_tests_cant": "the behaviour must follow for every format and every outcome of an external library", "anchors": ["src/pyscal/traj_process.py: read_file", "src/pyscal/traj_process.py: write_file"]}
{"id": "C65", "title": "Converting to ASE does not alter the system", "statement": "convert_snap leaves the system and its atoms unchanged, so converting twice with different species lists gives each time the symbols of the list passed.", "quantifier": "all systems and species lists", "why_tests_cant": "quantifies over all systems and sequences of conversions", "anchors": ["src/pyscal/formats/ase.py: convert_snap"]}
{"id": "C66", "title": "The average Voronoi volume is the mean over the atom and its neighbours", "statement": "After find_neighbors with method voronoi the volume of an atom is that of its cell and avg_volume is the mean of the volumes of its own cell and of the cells across its faces, so it lies between the least and the greatest volume.", "quantifier": "all systems and tessellations", "why_tests_cant": "all cells and all neighbour relations", "anchors": ["src/pyscal/system.cpp: System::get_all_neighbors_voronoi", "src/pyscal/system.cpp: System::find_average_volume"]}
{"id": "C67", "title": "Vertex positions belong to the last Voronoi search", "statement": "After find_neighbors with method voronoi, vertex_positions of an atom are the vertices of its present cell at absolute positions, no matter which searches were made before.", "quantifier": "all systems, tessellations and sequences of searches", "why_tests_cant": "quantifies over all histories of searches", "anchors": ["src/pyscal/system.cpp: System::get_all_neighbors_voronoi"]}
{"id": "C68", "title": "embed_in_cubic_box puts the system into a cuboid that contains its cell", "statement": "embed_in_cubic_box replaces the box by the smallest cuboid with axes along x, y, z that contains the three box vectors and the origin; no position, type or neighbour distance of the system changes and every atom of the cell lies in the new box.", "quantifier": "all systems, triclinic boxes and positions", "why_tests_cant": "quantifies over all boxes and positions", "anchors": ["src/pyscal/core.py: System.embed_in_cubic_box"]}
{"id": "C69", "title": "extract_cubic_box returns a cuboid unit of the same crystal", "statement": "extract_cubic_box returns a box along x, y, z and the atoms inside it, each once, such that repeating them periodically gives the same infinite crystal; the system itself is unchanged. It raises ValueError when no such box is found along an axis.", "quantifier": "all boxes, atom lists and repetition numbers", "why_tests_cant": "quantifies over all crystals and over the infinite periodic arrangement", "anchors": ["src/pyscal/core.py: System.extract_cubic_box", "src/pyscal/core.py: System.repeat"]}
{"id": "C72", "title": "calculate_energy assigns energies and their averages over neighbours", "statement": "calculate_energy stores for atom i the energy of atom i and, when averaged is requested, the mean of the energies of the atom and of its neighbours, whether the neighbours were found before or are found by the call, in systems of any size.", "quantifier": "all systems, energies and neighbour searches", "why_tests_cant": "quantifies over all systems, energies and histories of searches", "anchors": ["src/pyscal/core.py: System.calculate_energy"]}
{"id": "C70", "title": "find_tetrahedral_voids reports the atoms on tetrahedral sites", "statement": "find_tetrahedral_voids reports exactly the atoms whose Voronoi cell has four faces with four edges and that have exactly four different nearest neighbours within the precision; these four are the corners of a tetrahedron. Positions are given in units of the box when direct_coordinates is True. This holds for systems of any number of atoms.", "quantifier": "all boxes, atom lists, Voronoi cells and precisions", "why_tests_cant": "quantifies over all arrangements of atoms", "anchors": ["src/pyscal/misc.py: find_tetrahedral_voids"]}
{"id": "C71", "title": "compare_atomic_env groups the atoms of a type by their environment", "statement": "compare_atomic_env gives the different (rounded) Voronoi volumes of the atoms of the type with the number of atoms for each, and the different Voronoi fingerprints; a volume, a fingerprint and a count in the same line describe the same atoms.", "quantifier": "all systems, Voronoi cells, types and precisions", "why_tests_cant": "quantifies over all systems and cells", "anchors": ["src/pyscal/misc.py: compare_atomic_env"]}
{"id": "C73", "title": "Attributes of an Atom read back what was assigned", "statement": "After any sequence of assignments of values of the documented types, every attribute of an Atom reads as the value last assigned to it; attributes that were not assigned keep their values, and a new atom has the documented defaults.", "quantifier": "all atoms, all finite sequences of assignments, all values", "why_tests_cant": "quantifies over all sequences of assignments and over the contents of memory", "anchors": ["src/pyscal/atom_binding.cpp: py::class_<Atom>", "src/pyscal/atom.cpp: Atom::Atom", "src/pyscal/atom.cpp: Atom::sneighbors"]}
{"id": "C74", "title": "Storing the atoms does not disturb the system", "statement": "Assigning the atoms of a system to the system again, as most analyses do at the end to store their results, leaves the box, the stored atoms and their neighbours as they are, so that an analysis made before does not change the result of the next.", "quantifier": "all systems built by assigning atoms, all computations in between, all contents of memory", "why_tests_cant": "quantifies over all systems, sequences of computations and contents of uninitialised memory", "anchors": ["src/pyscal/core.py: System.atoms", "src/pyscal/core.py: System.repeat", "src/pyscal/core.py: System.calculate_chiparams", "src/pyscal/core.py: System.calculate_q"]}
{"id": "C75", "title": "A plot shows the cell and every selected atom once", "statement": "System.show draws the twelve edges of the cell and each atom that passes the filter exactly once, inside the cell at (a periodic image of) its position, with the colour of its own value.", "quantifier": "all systems, attribute values, keys, filters and numbers of presses of the button", "why_tests_cant": "quantifies over all systems and filters; a figure is only looked at", "anchors": ["src/pyscal/visualization.py: create_box_plot", "src/pyscal/visualization.py: plot_3d", "src/pyscal/visualization.py: plot_system", "src/pyscal/core.py: System.show"]}
{"id": "C76", "title": "Energies come from the right atoms", "statement": "calculate_energy gives every atom the energy that LAMMPS computes for this atom, whatever the order in which LAMMPS keeps the atoms and whatever the ids, and removes its temporary file.", "quantifier": "all systems, ids, orders of the atoms in LAMMPS, potentials and species", "why_tests_cant": "the shipped tests do not call it, as it needs LAMMPS; quantifies over all ids and orders", "anchors": ["src/pyscal/routines.py: get_energy_atom", "src/pyscal/core.py: System.calculate_energy"]}
{"id": "C77", "title": "set_atom_cutoff gives every atom factor times its mean neighbour distance", "statement": "System.set_atom_cutoff(factor) sets the cutoff of every atom to factor times the mean of the distances of its neighbours, a number, and changes nothing else.", "quantifier": "all systems, neighbour lists and factors", "why_tests_cant": "the shipped test looks at one atom of one crystal; quantifies over all neighbour lists, including empty ones", "anchors": ["src/pyscal/system.cpp: System::set_atom_cutoff", "src/pyscal/core.py: System.set_atom_cutoff"]}
{"id": "C78", "title": "Custom columns hold the value their key stands for", "statement": "get_custom returns, in the order of the keys, for each key the entry of the custom dictionary of the atom, or else its attribute of this name, or else q<l> or aq<l> for l from 2 to 12; any other key is an AttributeError.", "quantifier": "all atoms, dictionaries, attributes and lists of keys", "why_tests_cant": "quantifies over all keys and their order", "anchors": ["src/pyscal/core.py: System.get_custom"]}
{"id": "C79", "title": "get_qvals lists the parameters of the atoms in their order", "statement": "get_qvals returns, for an order or for each order of a list, the values that get_q gives for the atoms of System.atoms in the same order, without the atoms added to fill a small box; orders outside 2 to 12 are a ValueError.", "quantifier": "all systems, lists of orders, both kinds of parameters", "why_tests_cant": "quantifies over all systems and lists of orders", "anchors": ["src/pyscal/core.py: System.get_qvals", "src/pyscal/system.cpp: System::gqvals", "src/pyscal/atom.cpp: Atom::gq_big"]}
{"id": "C80", "title": "Results do not depend on the order of the atoms or on the origin", "statement": "If the atoms are listed in another order and all moved by the same vector, every atom has the same neighbours (under their new numbers) with the same distances and vectors, and the same Steinhardt parameters.", "quantifier": "all systems in any cell, permutations, translations, cutoffs, filters and orders of the parameters", "why_tests_cant": "quantifies over all permutations and translations of all systems", "anchors": ["src/pyscal/core.py: System.find_neighbors", "src/pyscal/system.cpp: System::get_all_neighbors_normal", "src/pyscal/system.cpp: System::calculate_q", "src/pyscal/system.cpp: System::calculate_aq"]}
{"id": "C81", "title": "A small system padded with copies finds the neighbours of the infinite periodic arrangement, up to half the padded box", "statement": "A list of 1 to 199 atoms inside an orthogonal box is padded with periodic copies when it is assigned. For every cutoff of at most half the padded box, find_neighbors lists for every stored atom exactly the sites of the infinite periodic arrangement closer than the cutoff, each once, with the distance and vector to that site. Each copy has the distances, weights, vectors and Steinhardt parameters (plain and averaged) of its original, and the plain parameters are those of the infinite arrangement. A cutoff beyond half the padded box is accepted and silently misses images.", "quantifier": "for all boxes, all lists of 1 to 199 atoms in the box, all type filters, all cutoffs up to half the padded box, all stored atoms including the copies", "why_tests_cant": "The arrangement is infinite and the equality has to hold for every box shape, every number of atoms and every cutoff up to the bound; tests compare a few crystals.", "anchors": ["src/pyscal/core.py: System.atoms", "src/pyscal/core.py: System.repeat", "src/pyscal/core.py: System.find_neighbors", "src/pyscal/core.py: System.calculate_q", "src/pyscal/system.cpp: System::get_all_neighbors_normal", "src/pyscal/system.cpp: System::get_abs_distance"]}
{"id": "C82", "title": "Repeating the cell, moving the origin or choosing other images changes neither neighbours nor parameters", "statement": "Take two descriptions of one periodic arrangement, each of at most 2300 atoms: a cell with atoms, and a box of n1 x n2 x n3 such cells whose atoms stand at sites of the arrangement, all displaced by one vector, each site once up to whole large boxes (so atoms may be repeated, reordered, shifted together and folded back into the box). Supercells are such descriptions. For every cutoff of at most half the sides of both boxes as stored, each atom of the second system has after find_neighbors the same distances, weights and vectors as the atom of the first at whose site it stands, and after calculate_q the same parameters, plain and averaged, whether or not either system was padded with copies.", "quantifier": "for all boxes, atoms, numbers of repetitions, displacements, choices of images, orders of the second list, type filters, cutoffs up to the bound and orders 2 to 12", "why_tests_cant": "Every cell, number of repetitions and order of the list is covered, including the change from padded to unpadded systems at 200 atoms; tests compare a few crystals of fixed sizes.", "anchors": ["src/pyscal/core.py: System.atoms", "src/pyscal/core.py: System.find_neighbors", "src/pyscal/core.py: System.calculate_q", "src/pyscal/system.cpp: System::get_all_neighbors_normal", "src/pyscal/system.cpp: System::calculate_q", "src/pyscal/system.cpp: System::calculate_aq"]}
{"id": "C83", "title": "The searched distance is the threshold times the mean spacing", "statement": "The number and adaptive methods collect candidates up to a guessed distance. Divided by the threshold it is the mean spacing of the atoms given: the side of a cube of the volume per atom. In orthogonal boxes this holds whether or not the system was padded with copies; in triclinic boxes it should hold for the volume of the cell. (Refuted for left-handed triclinic cells, where the distance is negative and no atom has a candidate.)", "quantifier": "for all boxes, lists of at least one atom and positive thresholds", "why_tests_cant": "Every box, number of atoms and orientation of the box vectors is covered; tests use a few right-handed cells.", "anchors": ["src/pyscal/system.cpp: System::get_all_neighbors_bynumber", "src/pyscal/system.cpp: System::get_all_neighbors_adaptive", "src/pyscal/core.py: System.atoms", "src/pyscal/core.py: System.box"]}
