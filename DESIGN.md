# DESIGN

Formal model of pyscal 2.10.21 (`/repo/src/pyscal`) in Rocq (Coq 8.16.1), logical name `Verif`, sources in `rocq/theories`.

## 1. Layout

* `Base.v`, `Num.v`, `Types.v` - result type (exceptions and undefined behaviour as values), number interface, atom and system records.
* `NumR.v`, `NumF.v`, `NumP.v` - the number systems (section 2). `Ex.v` - data for the Examples.
* `M_*.v` - model files: executable definitions mirroring the Python/C++ functions branch by branch, each with a comment citing file and lines. No proofs.
* `S_*.v` - specification files: the notions the properties are stated with, independent of the functions of the model.
* `P_*.v` - proofs.
* `C_*.v` - the property theorems `Cnn_...`, each followed by `Print Assumptions` and by an `Example` that meets its hypotheses or runs the model. Short proofs and small lemmas are here too.

## 2. Numbers

The C++ code computes with IEEE doubles. The model is written once, generically over a record `num` of operations (no laws, hence nothing is assumed by it):

* `Rnum` - Coq's real numbers (exact arithmetic). Geometric and spectral theorems are about this instance: they state what the algorithm computes when rounding is ignored.
* `SF64 lib` - IEEE-754 binary64 from Coq's `SpecFloat` (executable, axiom free), with the C library's transcendental functions as arbitrary parameters. Used for theorems about doubles and for refutations. `F64` is the instance with a test library.
* `PF lib` (`P64`) - the primitive floats of the kernel, only for running concrete examples and witnesses that are too slow with `SpecFloat`.
* Theorems quantified over `N : num` need no law of arithmetic and therefore hold for doubles as they are.

Totalised operations: on the reals division by zero is 0 and the square root of a negative number is 0, unlike in the code. Theorems on the reals in which this could matter exclude it by hypothesis (no coincident atoms, non-zero weights, nonsingular boxes) or the value is not used; where the code divides by zero the IEEE instance shows what happens.

Casts to `float` (e.g. `float(nop)`) are modelled as the identity. `pow(x, 0.5)` is modelled as `sqrt`, `pow(-1.0, m)` as the sign of parity, `x**2` as `x*x`. No fused multiply-add, no extended precision. Integers are unbounded (`int` overflow is not modelled).

## 3. Trusted base

* Coq's kernel (with its bytecode machine and, for the few theorems listed in section 6, its primitive floats) and `coqchk`.
* Axioms: only those of Coq's standard library, per theorem in section 6. None of our own.
* The reading of the source: every model definition cites its origin; where it simplifies, the comment says so.

Modelled code:

| file | lines | model |
|---|---|---|
| system.cpp | 16-239 | M_Container |
| system.cpp | 245-432, 571-628 | M_Geometry |
| system.cpp | 435-569, 630-1296 (neighbours), 1896-2029 (Voronoi) | M_Neighbors, M_Voro |
| system.cpp | 1304-1588 | M_Steinhardt |
| system.cpp | 1590-1653, 2483-2599 | M_Local |
| system.cpp | 1658-1753 | M_Solids |
| system.cpp | 1756-1883 | M_Cluster |
| system.cpp | 965-1076, 2034-2477 | M_CNA |
| atom.cpp | getters and setters used by the above | with them |
| atom.cpp 1-225, 325-390, atom_binding.cpp 76-451 | attributes seen from Python | M_Atom |
| core.py | 79-1823, 1909-1972, 2090-2184 | the same files, M_Analysis, M_Lammps, M_Formats |
| core.py | 1841-1906 / 1975-2025 / 2027-2088 | M_Energy / M_Container, M_Neighbors / M_Cubic |
| crystal_structures.py | all | M_Crystal |
| formats/lammps.py, vasp.py, ase.py, mdtraj.py, traj_process.py | all used | M_Lammps, M_Formats |
| trajectory.py | all | M_Traj |
| misc.py | all | M_Misc |
| visualization.py, core.py 2189-2213 | what is drawn (not its appearance, not the widgets) | M_Visual |
| routines.py, core.py 1883-1896 | all | M_Routines |

Not modelled: `csystem` pybind11 conversions, hdf5 output, plotly and ipywidgets, memory allocation, LAMMPS itself (a function from a file and commands to energies), warnings and prints.

External functions are inputs (Section variables or arguments) of the model, and theorems hold for all of them under the stated conditions:

* `std::sort`, `np.argsort`, `random.shuffle`, `np.random.normal`: any sorted permutation (any permutation, any numbers).
* `np.round`: any function.
* `np.linalg.inv`: any function; C06 assumes that it returns the inverse.
* voro++: any list of cells; C61, C66, C67, C70 and C71 assume one cell per atom in the layout of voro++.
* `np.sum`: any function of the list; C61 on the reals assumes the sum.
* LAMMPS and the data files written by ASE: C76 assumes that ASE numbers the atoms from 1 in their order and that LAMMPS returns every number once with its energy.
* ASE and mdtraj objects, `ase.io.read`, `ase.io.write`, the chemical symbols ASE knows.
* `str` of a float (`repr`): any function; theorems that read a number back assume that its text reads back. Fixed-point formatting (`%f`, `%14.6f`...) is modelled exactly, for reals and for doubles.
* `np.unique`, `np.histogram`, `np.loadtxt`, `np.ceil`, `np.mean`, list slicing and the string methods are modelled by their documented behaviour. Text is ASCII, gzip returns what was compressed, files do not change while they are read, `os.linesep` is a line feed.
* Uninitialised C++ memory: constructors take an arbitrary initial record (`raw`).
* Reading outside an array or a `std::vector` is the result `Err UB`; theorems say when it happens.

## 4. Per property

* **C01** Pair distance is a symmetric, non-negative quantity (partial). Algebra on the reals; for doubles the relation "opposite up to the sign of zero" is kept by every operation, and above half a box length the shift by the length cannot trigger the second test (Flocq: rounding of half a length, subnormal lengths included). Proved over exact reals and for doubles, for every box accepted by the setter: the same double in both orders (finite or infinite coordinates), never negative, +0 from an atom to itself. REFUTED only as a Python comparison when the value is NaN, e.g. for equal infinite coordinates; never NaN for finite coordinates in an orthogonal box.
* **C02** Minimum image convention is the true minimum over all periodic images (proved). For differences below a box length the single shift gives the representative of least absolute value; the minimum over all integer triples separates by coordinate. Doubles (P_DoubleDist, Flocq): the square root of a rounded square is exact, so the stored lengths are the given ones; the shift is exact (Sterbenz); rounding of the difference and of the norm is bounded. Exact real arithmetic; C02_double: the IEEE double returned is within 2^-50 of the sum of the side lengths of the exact minimum.
* **C03** Distance vectors are consistent with distances (proved). Coordinatewise: wrap d = d + k L with |wrap d| <= L/2; the length of the vector is the distance. Doubles: as C02. Exact real arithmetic; C03_double for IEEE doubles with error bounds.
* **C04** Distances do not depend on the choice of origin or of periodic image (proved). Common translations cancel; moves by one box by case analysis. Doubles: C02_double for both pairs and the error of the rounded sums. IEEE doubles in orthogonal boxes: C04_double bounds the change by the change of the differences plus two roundings of a distance, C04_translation_double by three. The last theorem is the exhibited pair beyond 1.5 box lengths.
* **C05** Periodic distance is a metric (proved). From C02 with minimising images and the Euclidean triangle inequality; the same for doubles with three error bounds. Exact real arithmetic; C05_double for IEEE doubles with an error bound.
* **C06** Triclinic distances use a lattice-equivalent image (proved). rot and rotinv are inverse matrices; fractional coordinates are wrapped by integers. Exact inverse from numpy assumed (oracle hypothesis); the last theorem shows that the image need not be the closest.
* **C07** A box is treated as triclinic exactly when it is not orthogonal (partial). State machine of the box setter. REFUTED as stated: the triclinic flag is never cleared, and non-orthogonal boxes whose three cosines cancel are treated as orthogonal. The positive theorems say when the treatment is right.
* **C08** The box that was set is the box that is returned and used (partial). State machine of the box and atoms setters, induction over histories. REFUTED for histories in which a list of fewer than 200 atoms was assigned before the box; proved for all other histories.
* **C09** Assigning atoms and reading them back gives the same atoms (proved). List reasoning on set_atoms, get_atoms and repeat: reals precede ghosts. For any arithmetic, in particular IEEE doubles.
* **C10** Small systems are padded to at least 200 atoms with exact periodic copies (proved). The 199 sizes by computation with the exact integer cube root (the code compares a rounded power), the copies by list reasoning for all lists. For any arithmetic; the cube root is the exact integer one (see DESIGN).
* **C11** repeat() creates exactly the requested copies (proved). List reasoning on the nested loops: membership, count, ids. For any arithmetic.
* **C12** Atom counters always match the stored atoms (partial). Invariant, induction over operation sequences. REFUTED for adding ghosts to a system without ghosts and for lists with a ghost before a real atom; proved for every other history.
* **C13** Writing back an unmodified atom changes nothing (partial). Invariant "the stored index is the position" for the sources of atoms. REFUTED for atoms of LAMMPS dump files: read_snap stores the index of the next atom, so for every file read and every real atom, writing it back overwrites the next stored atom (or is out of range). Refuted too for images of small systems. Proved for all atoms whose stored index is their position, and so for all atoms of make_crystal and of ASE objects.
* **C14** remap_atoms puts atoms in the box and removes near-duplicates (partial). Reals for remap_atom; list induction for the pairwise removal. Doubles: witness by computation, generalised to every system containing it. Proved in exact real arithmetic. REFUTED for doubles: an atom just below 0 is remapped to the box length itself and, with remove_atoms=True, dropped.
* **C15** Cutoff neighbours are exactly the atoms closer than the cutoff (proved). Fold over all pairs i < j with an invariant describing each list; with C02 for doubles the lists are right up to the error bound. Any arithmetic; C15_minimum_image_neighbours (exact reals, orthogonal boxes) ties the neighbours to the closest images, C15_double does so for IEEE doubles up to an error bound.
* **C16** Cutoff neighbour relation is symmetric with mirrored vectors (proved). Corollary of the invariants of both search paths. Any arithmetic, all-pairs and cell-list paths.
* **C17** Type filters are respected (partial). The same invariants; witnesses for the other methods. REFUTED: proved for numeric and adaptive cutoffs; the number, sann and voronoi methods list neighbours the filter forbids.
* **C18** Cell lists give the same neighbours as brute force (partial). Cell index arithmetic on the reals: close atoms are in adjacent cells, neighbour cells are distinct if there are three in each direction. For doubles (C18_double) the rounding errors of the number of cells, their width and the quotient are bounded, so close atoms are still in adjacent cells up to 2^-49 of the side lengths. REFUTED for atoms with a coordinate in (-1e-6,0), which are put into the wrong cell, and for doubles just below the upper face, which are put into a cell outside the box; proved (exact reals) for all other atoms, and for doubles with an explicit error bound for atoms not within 2^-50 of the upper face.
* **C19** Number method returns exactly the nearest atoms (proved). Sorted prefixes of a sorted permutation. Doubles: the same loop invariant with the IEEE comparisons; NaN distances never enter the list, and distances are equal both ways by the lemma of C01_double. Exact reals, and IEEE doubles as computed (C19_double: any libm, up to 4000 atoms, coordinates may be NaN or infinite, sort only assumed to work on lists without NaN); std::sort is any function returning a sorted permutation.
* **C20** Adaptive cutoff neighbours follow the definition (proved). Sorted prefixes, the adaptive radius as a mean. Doubles: as C19; the radius is the rounded mean the code computes, so only the comparisons with it are needed. Exact reals, and IEEE doubles as computed (C20_double, as C19_double); nlimit >= 1.
* **C21** SANN neighbours are the m nearest atoms satisfying the SANN condition (partial). S_Sann: the sann rule, and the rule the code follows (fourth nearest left out, radius compared with the last atom taken). C21_what_is_found: outcome of find_neighbors for every system over the reals, by invariants of the while loop, the atom loop and the nine retries; C21_right_iff: with distinct distances the result is the sann one exactly for atoms with three neighbours. Refutations: witnesses by execution. REFUTED: the fourth nearest atom is skipped, and the candidate list is read past its end. What is found, when it fails and when it reads outside is characterised over the reals for all systems; the result is right exactly for atoms with three neighbours (distinct distances).
* **C22** Neighbour storage is never overrun (partial). The invariant of C15 with the capacity as a bound. REFUTED: more than 300 neighbours overrun the arrays; characterised exactly for the all-pairs search.
* **C23** find_neighbors does not depend on earlier neighbour searches (partial). Two runs from states that agree on positions, types and box are equal; induction over searches for the reachable states. For triclinic cells the 26 copies made by embed_triclinic are followed through the next search. REFUTED: a Voronoi search on a triclinic cell without ghosts embeds the system and leaves 26 ghost copies of each atom at distance 0, which the next cutoff search lists. Proved, any arithmetic, for all histories in which Voronoi searches are on non-triclinic cells or on systems that already have ghosts.
* **C24** Invalid find_neighbors arguments are rejected (partial). Branch-by-branch model of the argument checks, exceptions as values. REFUTED for unknown methods and for the flag after a rejected call; proved for thresholds and cutoff types.
* **C25** Steinhardt parameters equal their definition (proved). dfactorial and PLM are shown equal to (l-m)!/(l+m)! and to the associated Legendre functions (Rodrigues); the loops are the sums of the definition. Exact reals; all environments without coincident atoms, all weights, every l in 2..12, averaged values included.
* **C26** Steinhardt parameters are rotation invariant (proved). Addition theorem for l = 2..12 as polynomial identities checked by `field`/`ring`, so q_l depends only on scalar products. Exact reals, all orthogonal matrices.
* **C27** Steinhardt parameters lie between 0 and 1 (proved). Addition theorem and Cauchy-Schwarz. Exact reals.
* **C28** Steinhardt parameters do not depend on neighbour order or on the scale of weights (proved). Permutation of finite sums; homogeneity. Exact reals.
* **C29** Only q values 2 to 12 are accepted (proved). Guards with exceptions as values; get/set laws of the array. Any arithmetic. The last theorem records that set_q with a list stores the values before an invalid one and then raises.
* **C30** q depends only on the current neighbours (partial). History model of the flag voronoiused. REFUTED: an adaptive search after a Voronoi search keeps the flag that switches the normalisation off; proved for all other searches (Voronoi searches: cell not triclinic or ghosts already made, since the ghosts made by the embedding have an uninitialised condition).
* **C31** Bond order correlation s_ij is symmetric and bounded (proved). Cauchy-Schwarz for lists of reals. Over the reals: values in [-1,1], symmetric, 1 on the diagonal for any components; the stored values are s_ij as defined from the harmonics.
* **C32** Solid bonds are the neighbours whose s_ij passes the threshold (partial). The dangling else resolved as C++ does; exact count. REFUTED: with comparecriteria 0 every neighbour whose s_ij differs from the threshold is counted, otherwise none, and right is ignored (dangling else, system.cpp:1717-1720). C32_what_is_counted characterises the count exactly.
* **C33** Solid classification is the documented conjunction of criteria and is monotone (proved). Boolean decision rule; order reasoning (`machine_lt_le` covers doubles). The conjunction over any number system; monotone over the reals and in IEEE arithmetic; rejection of each invalid argument in the order of the checks.
* **C34** Clusters are the connected components (proved). Invariant of the recursive harvest (finished atoms are closed under neighbours); the fuel is shown sufficient.
* **C35** Cluster ids are 1..k and the largest cluster size is right (proved). Counting lemmas on the labels.
* **C36** The largest_cluster flag marks exactly the atoms of the largest cluster (partial). Counting lemmas; witness for the empty selection. REFUTED for an empty selection: every atom is flagged. Proved when an atom is selected.
* **C37** Clusters are connected across periodic boundaries (partial). From C34 with periodic neighbour lists. REFUTED for systems under 200 atoms: neighbours that are ghosts do not join the clusters. Proved for systems without ghosts.
* **C38** Clustering always terminates and uses each atom once (proved). Fuel bound by the number of atoms not yet visited.
* **C39** CNA assigns exactly one structure to each atom and counts add up (partial). Counting over the structure codes. Proved whenever the analysis returns, and it always returns without a lattice constant. REFUTED with a lattice constant: it reads outside the candidate list (undefined behaviour) iff some atom has fewer than 14 candidates.
* **C40** CNA labels follow the common-neighbour signatures (partial). Signatures as counts over the bond graph, decision rule, order independence. Labels proved over the reals for every system whose atoms have 14 candidates. REFUTED in two points: two triangles count as a 6-6-6 bond, and if some atom has fewer than 14 candidates the adaptive labels depend on the order of the atoms.
* **C41** Calling calculate_cna again gives the same answer (partial). History of temp_neighbors. REFUTED: candidates of the first call accumulate. Proved after reset_neighbors and for any history that leaves no candidates.
* **C42** Diamond identification counts add up (proved). Counting and the three passes one by one. Counts for any arithmetic and history; shell labels; diamond labels from the second neighbours over the reals; failure cases.
* **C43** Centrosymmetry is non-negative, zero for inversion-symmetric shells and minimal over pairings (partial). The sum of the smallest k of a multiset is at most that of any k-subset; invariance through scalar products. Over the reals the value is the smallest sum over nmax/2 pairs, at most that of every pairing, 0 for opposite neighbours and unchanged by rotations; never negative in double precision too. REFUTED for small systems: with fewer than nmax candidates the code reads outside the list (undefined behaviour).
* **C44** Angular criterion is non-negative and detects tetrahedra exactly (partial). Sum of squares. Proved over the reals for every call that returns: six terms over the four nearest neighbours, never negative, 0 iff all six angles are tetrahedral. REFUTED for systems under 200 atoms: a ghost neighbour raises IndexError.
* **C45** Chi parameters count every neighbour pair once (partial). Bins cover [-1,1] by Cauchy-Schwarz; counting. Proved over the reals. REFUTED in double precision: opposite neighbours can have a computed cosine below -1 and are then in no bin (24 of the 28 pairs in bcc). Exact count for any arithmetic.
* **C46** Short range order parameters have the documented value and range (partial). Real arithmetic on counts. Values, range, averages and error cases over the reals for types 1 and 2 (calculate_sro) and types 1..n (calculate_pmsro). REFUTED for other type numbers: the counts are indexed by the type number.
* **C47** Entropy integration is the trapezoidal rule with each atom's own density (partial). Closed form of the loop as a sum; comparison with the trapezoidal sum. REFUTED: the integration leaves out the last interior grid point, so values are too large unless g = 1 there; with local=True all atoms get the density of the first atom. Exact characterisation of all values and averages over the reals.
* **C48** The disorder variable follows its definition (partial). Closed form of the accumulating loop. REFUTED: the loop uses the slot number instead of the neighbour and accumulates over slots. Exact characterisation of the stored values and averages over the reals; they are never negative; q outside 2..12 is refused.
* **C49** The radial distribution histogram counts every pair once (partial). Histogram counting lemma over all pairs. Proved over the reals for all stored atoms; with the default limit every pair is counted. REFUTED for systems under 200 atoms: pairs of ghosts are counted, the normalisation is that of the real atoms.
* **C50** Concentrations add up to one (partial). Counting over sorted unique types. REFUTED: the values are numbers of atoms, not fractions. Proved: one positive count per type present, adding up to the number of real atoms.
* **C51** make_crystal builds the requested lattice (proved). Induction over the four nested loops; lattice coordinates over the reals. Number, ids, indices and stoichiometry for any arithmetic (IEEE included) and any noise; positions on the lattice sites, inside the box and distinct over the reals. The code knows eight structure names, the property says nine. A repetition list shorter than three raises IndexError.
* **C52** Perfect crystals have their crystallographic coordination (partial). Integer lattice argument in units of a/2 or a/4, with C18 for large systems. REFUTED for sc crystals of more than 2300 atoms that are less than three cutoffs wide: the cell grid has two cells in that direction and neighbours are listed twice (witness 3 x 3 x 256). Proved over the reals for all repetitions >= 3 and all lattice constants when there are at most 2300 atoms (ghost padding included), and for larger crystals that are three cutoffs wide with a cutoff of at least 1e-6, which for bcc and fcc needs no width condition.
* **C53** Writing and reading a LAMMPS dump preserves the system (partial). Character level printer and parser proved inverse; induction over lines. REFUTED for all custom keys: a key named like a standard column replaces it when reading, a value with a blank is cut, and the file of a system without atoms cannot be read. Proved at character level for all other systems, keys (distinct words that are not standard names) and values that are words: same atoms, ids, types and order, custom texts equal, positions and box lengths equal to six decimals, over the reals for the whole system and for IEEE doubles (nearest double to the nearest six decimal number) for the file read.
* **C54** Splitting a trajectory file loses and duplicates nothing (partial). Loop over lines with counters; induction. Proved for all files without carriage returns: one file per complete snapshot, contents exactly its lines, distinct names, nothing lost or repeated; fewer than four lines raise NameError. REFUTED for files with CR LF line ends, which are rewritten with LF.
* **C55** Trajectory blocks partition the file (proved). Byte offsets as sums of line lengths. All files. For block numbers 0 <= i < nblocks the lines are those of the i-th snapshot, and the blocks concatenate to the complete part of the file (C55_blocks). Opening errors and numbers outside that range are characterised; negative numbers address the right block only without stray lines (C55_negative, C55_negative_refuted).
* **C56** Slicing and adding time slices keeps snapshots in order (partial). Python slices; heap model for aliasing. REFUTED in part: adding always alters the left operand (C56_operand_refuted) and adding an object to itself never ends (C56_self_refuted). Proved: slices select what Python slicing selects, sums and arbitrary expressions over different objects list the snapshots from left to right, sum() works.
* **C57** Iterating over a trajectory visits existing snapshots only (partial). Index lists of the iterator. REFUTED in part: descending starts with a block that does not exist and omits the first one; ascending yields non-existing blocks if more are asked for than exist. Proved for ascending and random order otherwise (random.shuffle is any permutation).
* **C58** Exporting time slices reproduces the snapshots (partial). State machine of loaded blocks over any history. REFUTED in part: a loaded block is written with time step 0, without atoms if it only has id and type, not at all without id and type; a block of one atom cannot be loaded. Proved: unloaded blocks are written byte for byte after any history; loaded data with ids or types and another column is preserved (numbers whose text reads back; ids and types integers).
* **C59** POSCAR export lists every atom exactly once grouped by type (proved). Stable grouping by type; number formatting to 14 decimals. All systems of reals and of IEEE doubles: the file exists, its lines are the title, the scale, the box, the counts by increasing type and one coordinate line per atom; the order is a permutation sorted by type that keeps the order within each type, and the numbers read back to 14 decimals.
* **C60** ASE species and pyscal types are mapped consistently (proved). Sorted unique symbols; lookup is the inverse of indexing. All lists of symbols, any arithmetic. Converting back gives the ASE object itself, from the dictionaries of the atoms or from the sorted list. Also proved for mdtraj objects; missing or wrong lists are rejected. ASE objects have as many symbols as positions.
* **C61** Voronoi vectors count faces by number of edges (partial). Inductive count of faces and edges against the slices of the flat arrays; composition of search and vector. Proved for all cells, any arithmetic: entries count faces by the number of edges that exceed the cutoff, among faces whose weight exceeds the area cutoff; not negative, sum at most the number of faces. REFUTED as documented: 'at least' is a strict comparison, and the area share is of area^voroexp. Search without filter; at most 300 faces per cell; for a triclinic cell that gets embedded the 27 copies are searched and each has its record.
* **C62** The surface flag marks the atoms in contact with the liquid (proved). Branch analysis of the surface pass.
* **C63** Solid classification is invariant under rotation (proved). From C26: s_ij depends on scalar products only.
* **C64** Other file formats are handled by ASE (partial). Branch analysis with ASE as an oracle. REFUTED: for every such format reading raises TypeError even if ASE succeeds, because warnings.info does not exist; writing leaves the file and then raises TypeError.
* **C65** Converting to ASE does not alter the system (partial). The dictionaries are shared; induction over the atoms. REFUTED: the species are stored in the dictionaries of the atoms of the system, and every later conversion ignores its list (C65_second_list, for all systems). Proved when all atoms know their species: nothing changes.
* **C66** The average Voronoi volume is the mean over the atom and its neighbours (proved). Closed form of the loop; a mean lies between bounds. On the reals; search without filter, including the embedding of a triclinic cell, voro++ returns a cell for each atom searched. Any arithmetic: voronoi_run.
* **C67** Vertex positions belong to the last Voronoi search (partial). Closed form of the search on the data of the cells (voronoi_core); for a triclinic cell that is not yet padded, the closed form of the embedding (embed_spec) comes first. REFUTED: a search appends to the positions of the former ones (after two searches each is there twice). Proved: exactly the vertices are appended (an embedded triclinic cell included: the original atoms keep their places), so fresh atoms have the right ones.
* **C68** embed_in_cubic_box puts the system into a cuboid that contains its cell (partial). Case analysis of the minima and maxima of the cell vectors; the triclinic distance does not use the box lengths. REFUTED: atoms of the cell can lie outside the new box, which starts at the origin while the cell may extend to negative coordinates. Proved on the reals: the new sides are those of the tightest cuboid of a copy of the cell; atoms, triclinic flag and distances do not change.
* **C69** extract_cubic_box returns a cuboid unit of the same crystal (partial). Invariant of the loop over the repeated atoms (nearest candidate per direction); a translation that maps the first atom to one of its periodic images maps the crystal to itself, as do integer combinations, and the window picks one representative of each class. REFUTED: sides join atoms of the same type, not equivalent atoms, so the result need not repeat to the same crystal; the box of the system is left scaled (distances change); on doubles an atom can lie on the upper face. Proved on the reals: sides and errors exactly, atoms in the box, and the same crystal if the first atom is the only one of its type in the cell and the repetition covers the result.
* **C72** calculate_energy assigns energies and their averages over neighbours (partial). Closed form of the two loops over the list of atoms. REFUTED: neighbours found by the call itself are not used and are lost; with neighbours among the ghosts of a small cell IndexError. Proved on the reals for neighbours found before and all in the list. LAMMPS energies are an input.
* **C70** find_tetrahedral_voids reports the atoms on tetrahedral sites (partial). Run of the search and the vectors (C61) followed by the loop over the atoms as a filter; any arithmetic for the failures, witnesses on primitive floats (a crystal of plane layers with its Voronoi cells). REFUTED: the four nearest neighbours may lie in a plane; direct coordinates divide by differences of box vector components, so in every orthogonal box ZeroDivisionError as soon as an atom is found; neighbours among the ghosts of a small cell give IndexError. Proved on the reals: exactly the atoms with four four-edged faces and four nearest neighbours are reported, with type, volume and position (all neighbours real; an embedded triclinic cell included).
* **C71** compare_atomic_env groups the atoms of a type by their environment (partial). Run as for C70; the unique values with counts by induction on the list; two lists sorted alike and without repetitions pair up. REFUTED: volumes and fingerprints are sorted separately, so a line can join the volume of one environment with the fingerprint of another. Proved on the reals: the volumes with their counts, the fingerprints, the mismatch flag, and that lines belong together if larger volumes have alphabetically later fingerprints (an embedded triclinic cell included).
* **C73** Attributes of an Atom read back what was assigned (partial). Induction on the assignments; each accessor changes its own members and leaves what the others read, different names have different accessors. For values of the documented type the conversions are the identity. REFUTED: assignments to neighbor_distance, neighbor_vector, local_angles and sij are accepted and ignored; neighbours assigned to a new atom have vectors and angles from uninitialised memory, and thirteen attributes (condition, mask, cutoff, volume, ...) have no default; the attribute bonds is bound twice, so the number of solid bonds cannot be read. Proved for all histories of assignments and all number systems: every other attribute reads back, weights and face data if they are given for all neighbours.
* **C74** Storing the atoms does not disturb the system (partial). The setter on a padded system recomputes the same box (setting a box twice is the same as once) and the same shifts; the new ghosts are compared with the old ones one by one. The two refutations are runs on primitive floats checked by a boolean function; that calculate_q cannot succeed with a neighbour outside the array holds for every number system. REFUTED: most analyses end by storing the real atoms again. Below 200 atoms all ghosts are replaced by new ones without neighbours and with uninitialised conditions, so calculate_chiparams before calculate_q makes q_2 depend on memory and the averaged q_2 nan (216-atom run in double precision). A triclinic cell of 200 or more atoms loses the ghosts of its Voronoi search, and calculate_q then reads outside the array. Proved for all number systems: from 200 atoms on without ghosts nothing changes; below 200 atoms exactly the ghosts are replaced, each by one of the same id, type, coordinates and flag.
* **C75** A plot shows the cell and every selected atom once (partial). Closed form of the loop over the atoms (positions of those that pass, colours of all) for any type of attribute values; the 24 segments drawn are compared with the edges of the cell; the position of a triclinic atom by the theorem behind C06. REFUTED: with a filter the m-th atom drawn has the colour of the m-th atom of the whole list; every further press of the button adds another cloud with all atoms; with another origin some lines end at corners of the unshifted cell; systems of less than 200 atoms are remapped into the enlarged box and triclinic ones to within half a cell of the corner, so atoms are drawn outside the drawn cell. Proved: without filter every atom is drawn once, at its remapped position and with its own colour (any arithmetic, any attribute values); which atoms pass and which colours are stored with a filter; IndexError if nobody passes; the figure after any number of presses; the lines drawn for the cell of a system are exactly its twelve edges; atoms of a rectangular box without padding are drawn inside it; triclinic atoms at a lattice translate with fractional coordinates between -1/2 and 1/2.
* **C76** Energies come from the right atoms (partial). The dictionary of distinct numbers is the list of pairs, so a look-up does not depend on the order LAMMPS returns; then the closed form of the loops as in C72. REFUTED: energies are looked up by the id of an atom, but the file that LAMMPS reads numbers the atoms by their place in the list, so atoms whose ids are in another order get each other's energies, and other ids are a KeyError that leaves the temporary file behind; the default species 'Au' counts as two species and always fails. Proved for any arithmetic and any order in which LAMMPS returns the atoms: an atom gets the energy of the atom whose place is its id, hence its own if the ids are 1, 2, ... in order; a missing potential is a ValueError with the file left behind. For repeated ids the last energy counts (C76_dictionary); LAMMPS gets the given style and coefficients, in order (C76_commands). Assumes the numbering of ASE and LAMMPS (libraries_ok).
* **C77** set_atom_cutoff gives every atom factor times its mean neighbour distance (partial). Every stored atom is mapped. S_Access: the mean as the number from which the deviations cancel; some distance is below it and some above. Doubles: 0/0 and products with it. REFUTED for atoms without neighbours: their cutoff is 0/0, no number in doubles, whatever the factor, and no distance is within it. Proved: nothing but the cutoffs changes (any arithmetic); an atom with neighbours gets factor times the mean of their distances, which lies between factor times two of them and with a factor of at least one reaches one of them (exact reals).
* **C78** Custom columns hold the value their key stands for (partial). S_Access gives the meaning of a key as a relation; decimal digits read back as the order. The remaining keys by their first characters. REFUTED for the exception: an unknown key that begins with q or aq, such as 'quality', is a ValueError, and the empty key an IndexError, not the AttributeError of the other unknown keys. Proved for any arithmetic and any attributes: keys with a meaning give their values in the order of the keys, the dictionary before an attribute before q2-q12 and aq2-aq12; which exception each other key raises.
* **C79** get_qvals lists the parameters of the atoms in their order (proved). The real atoms are the stored prefix; the array of an atom has all eleven orders. Any arithmetic; ghost atoms are left out, orders outside 2-12 are a ValueError.
* **C80** Results do not depend on the order of the atoms or on the origin (proved). The entries of an atom are compared as sets without repetitions; an injection of the numbers is onto. Distance vectors are odd on the reals (distances symmetric on doubles), so the pair may be evaluated either way round. The parameters depend on weights and vectors only (gram_perm), and averages on those of the neighbours. Cutoff method with all pairs (up to 2300 atoms), any cell. Exact reals for the vectors and the parameters; C80_order_double: neighbours and distances for IEEE doubles as computed, in any order (without a translation, which rounds: see C04_translation_double).
* **C81** A small system padded with copies finds the neighbours of the infinite periodic arrangement, up to half the padded box (proved). S_Periodic.v states the infinite arrangement: a site is an atom of the list and a cell of integers, its place is the position plus the cell times the sides. The stored atoms of the padded system are a bijection with the sites of the cells -K..K (from C10); the minimum image of a pair is one site, and for cutoffs up to half the padded box the only one close enough, so the entries are exactly the shell (C81_images). Moving all sites by one cell permutes the stored atoms and renames their entries, and the parameters do not depend on the names (C81_copies, C81_parameters). With the addition theorem the plain parameter of an original is the one S_PeriodicQ.v defines from the angles between the sites of its shell in the infinite arrangement (C81_values), and the averaged one the average over the shells of the site and its neighbours (C81_averages). C81_any_size is the same for the atoms of systems of up to 2300 atoms, which are not padded from 200 on. The witness of C81_large_cutoff_refuted is one atom in a box of 1 x 10 x 10 with cutoff 5: the image at distance 4 is missing. Not covered: triclinic cells, the cell-list search (more than 2300 real atoms are never padded), rounding. Exact reals, orthogonal boxes, cutoff method. C81_large_cutoff_refuted: without the bound on the cutoff the claim is false, images are silently missing.
* **C82** Repeating the cell, moving the origin or choosing other images changes neither neighbours nor parameters (proved). S_Supercell.v (describes): atom j of the second list stands at a site of the first plus one common displacement, and every site is one of these moved by whole large boxes, in one way. C82_supercells proves that supercells are such; the Example C82_moved has a moved origin and a folded atom. Every site of the large arrangement is then one site of the small arrangement, with the same place and type, so shells are shells (unfolded_shell). The entries of both systems are shells by C81, and parameters depend on the directions only. Padding may differ between the two systems. Exact reals, orthogonal boxes, cutoff method with all pairs (up to 2300 atoms on both sides), cutoffs up to half of both boxes as stored.
* **C83** The searched distance is the threshold times the mean spacing (partial). S_Spacing.v states the spacing g by g^3 n = V and g > 0. The stored box is 2K+1 times the given one along each axis and holds (2K+1)^3 times the atoms, so padding cancels; the cube root of NumR is a cube root on both sides of zero. Triclinic volumes are signed determinants: the witness is a left-handed cell of volume 1. REFUTED: in a left-handed triclinic cell the distance searched is negative, so no atom has a candidate neighbour and the number and adaptive methods cannot find any. Proved for orthogonal boxes, padded or not, and for right-handed triclinic cells. Exact reals.

## 5. Disagreements between code and documentation found

Each is a `_refuted` theorem or is stated in the theorem named.

* Box: the triclinic flag is never cleared, cancelling cosines hide a triclinic cell (C07); a small list assigned before the box leaves a stale box (C08); a triclinic distance need not be the smallest (C06).
* Atoms: adding ghosts or a ghost before a real atom breaks the counters (C12); atoms read from LAMMPS dumps carry the index of the next atom (C13).
* Neighbours: filters are ignored or misapplied by the number, sann and voronoi methods (C17); coordinates in (-1e-6, 0) land in the wrong cell, so do doubles just below the upper face, where the search of a large system writes outside the cell array, and two cells in a direction list neighbours twice (C18, C52); sann skips an atom and reads past the list (C21); more than 300 neighbours overrun the arrays (C22); an unknown method or a rejected call leaves a set flag (C24).
* Steinhardt and solids: stale voronoiused flag (C30); set_q with a list is not atomic (C29); the threshold test of find_solids has a dangling else and ignores `right` (C32).
* Clusters: an empty selection flags every atom (C36); small systems are not joined through ghosts (C37).
* CNA: reads outside the candidate list with a lattice constant and few atoms (C39); two triangles count as a ring and adaptive labels may depend on the order of atoms (C40); a second call accumulates candidates (C41).
* Local quantities: centrosymmetry and the angular criterion fail in small systems (C43, C44); opposite neighbours can drop out of the chi histogram (C45); short range order indexes by type number (C46); the entropy misses a grid point and uses one density (C47); the disorder loop uses slots instead of neighbours (C48); the radial distribution counts ghosts (C49); concentrations are counts (C50).
* Files: custom keys named like columns, values with blanks, empty systems (C53); carriage returns (C54); negative block numbers with stray lines (C55); time slices change their left operand and adding one to itself does not end (C56); descending iteration (C57); time step lost on export (C58); other formats always raise TypeError (C64); conversion to ASE alters the system (C65).
* Voronoi: vertex positions accumulate (C67); cutoffs of the Voronoi vector are strict and on area^voroexp (C61).
* Triclinic cells: a Voronoi search leaves 26 ghost copies of each atom at distance 0 with an uninitialised condition (C23); embed_in_cubic_box keeps atoms and triclinic flag (C68).
* extract_cubic_box can return a box that is not a period and leaves the box of the system scaled (C69); calculate_energy averages over a stale copy of the atoms and fails for ghosts (C72).
* Storing the atoms (`self.atoms = atoms` at the end of most analyses) replaces the ghosts of small systems by new ones without neighbours and with uninitialised conditions: averaged q values become nan after calculate_vorovector, calculate_chiparams and others. For triclinic cells of 200 atoms or more the ghosts of a Voronoi search disappear while neighbours still refer to them (C74).
* show: with `filterby` the colours are those of other atoms (positions are filtered, colours are not); every press of the button draws all atoms once more; if no atom passes there is an IndexError; atoms of systems below 200 atoms and of triclinic cells can be drawn outside the drawn cell; `create_box_plot` adds the origin to some corners only (C75).
* set_atom_cutoff divides by the number of neighbours: the cutoff of an atom without neighbours is NaN (C77_isolated, C77_refuted).
* get_custom reports an unknown key beginning with q or aq as a ValueError, and the empty key as an IndexError, instead of an AttributeError (C78_unknown_refuted).
* calculate_energy looks energies up by id, but the data file numbers the atoms by their place: with ids in another order (an unsorted dump file) atoms get the energies of others, with larger ids there is a KeyError. The default `species='Au'` always fails, the argument `mass` is ignored, and after an exception the temporary file stays (C76).
* Atom: four setters do nothing, thirteen attributes are not initialised, `bonds` is bound twice and hides the number of solid bonds; pos, allq and vorovector are read outside the list if it is too short (C73). The class documentation gives 1 as default of `type`, the code 0.
* find_tetrahedral_voids: direct coordinates use `box[0][1]-box[0][0]` as if the box were given by lower and upper bounds, so any orthogonal box gives ZeroDivisionError; four coplanar neighbours count as a tetrahedron; ghosts of small cells give IndexError (C70). compare_atomic_env pairs sorted volumes with sorted fingerprints (C71).
* remap_atoms moves a double just below 0 to the box length; with remove_atoms the atom is lost (C14).
* Small systems are padded to a number of atoms, not to the cutoff: a cutoff beyond half the padded box is accepted and misses images without a message (C81).
* Distances with infinite coordinates are NaN, hence not equal to themselves in Python (C01).
* C83: boxvol at system.cpp:919, 1119 and 1219 is the signed determinant. For left-handed cells the guessed distance is negative, and the number and adaptive methods (and the ones built on them) have no candidates.

## 6. Axioms per theorem

Collected from the `Print Assumptions` output of the build. *closed*: closed under the global context. *reals*: `ClassicalDedekindReals.sig_forall_dec`, `ClassicalDedekindReals.sig_not_dec`, `FunctionalExtensionality.functional_extensionality_dep`. *reals + classic*: these and `Classical_Prop.classic`. *primitive floats*: the types and operations of `PrimFloat` and `PrimInt63`, which the kernel evaluates (no statement about them is assumed).

* *reals + classic* (129): `C01_distance_symmetric_nonneg`, `C01_double`, `C02_diagonal_box_is_orthogonal`, `C02_double`, `C02_minimum_image_is_minimum`, `C03_distance_vector_consistent`, `C03_double`, `C04_double`, `C04_far_image_refuted`, `C04_image_invariant`, `C04_translation_double`, `C04_translation_invariant`, `C05_double`, `C05_triangle`, `C06_closest_image_refuted`, `C06_setter_reaches_triclinic`, `C06_triclinic_image`, `C07_cancelling_cosines_refuted`, `C07_history_refuted`, `C07_orthogonal_history`, `C07_skewed_box_is_triclinic`, `C08_box_get_after_set`, `C08_stale_box_refuted`, `C14_remap_atoms`, `C15_double`, `C15_minimum_image_neighbours`, `C18_cells_equal_brute_force`, `C18_double`, `C18_find_neighbors_any_size`, `C19_double`, `C19_number_method`, `C20_adaptive_method`, `C20_double`, `C21_right_iff`, `C21_what_is_found`, `C23_voronoi_triclinic`, `C23_voronoi_triclinic_refuted`, `C25_q_equals_definition`, `C26_rotation_invariant`, `C27_between_0_and_1`, `C28_order_scale_inversion`, `C30_normalised_after_search`, `C30_normalised_after_voronoi`, `C31_bounded_symmetric_self`, `C31_stored_values_are_s_ij`, `C33_monotone`, `C37_joined_across_boundaries`, `C40_labels`, `C40_order_of_neighbours`, `C40_signatures`, `C42_diamond`, `C42_too_few`, `C43_bounds`, `C43_never_negative`, `C43_rotation`, `C43_value`, `C44_tetrahedral`, `C44_value`, `C45_bins`, `C45_total`, `C46_pmsro`, `C46_range`, `C46_sro`, `C46_type_count_refuted`, `C46_type_numbers_refuted`, `C47_always_too_large`, `C47_refuted`, `C47_trapezoid`, `C47_value`, `C48_refuted`, `C48_value`, `C49_all_pairs`, `C49_histogram`, `C50_fractions_refuted`, `C51_lattice`, `C52_bcc_fcc`, `C52_coordination`, `C52_coordination_refuted`, `C53_empty_refuted`, `C53_round_trip_double`, `C53_round_trip_real`, `C58_integers`, `C59_poscar_double`, `C59_poscar_real`, `C61_real`, `C63_rotation_invariant`, `C66_average`, `C66_between`, `C68_atoms_in_box_refuted`, `C68_distances_unchanged`, `C68_tight_box`, `C69_atoms_in_box`, `C69_box_left_scaled`, `C69_edges`, `C69_same_crystal`, `C69_same_crystal_refuted`, `C69_system_unchanged_refuted`, `C70_orthogonal_box`, `C70_reported`, `C71_groups`, `C72_mean`, `C75_cell`, `C75_filter_refuted`, `C75_inside`, `C75_origin_refuted`, `C75_small_refuted`, `C75_triclinic`, `C75_triclinic_refuted`, `C75_twice_refuted`, `C76_refuted`, `C77_mean`, `C77_reach`, `C80_neighbours`, `C80_order_double`, `C80_parameters`, `C81_any_size`, `C81_averages`, `C81_copies`, `C81_half_box`, `C81_images`, `C81_large_cutoff_refuted`, `C81_parameters`, `C81_values`, `C82_neighbours`, `C82_parameters`, `C82_supercells`, `C83_left_handed_refuted`, `C83_spacing`, `C83_triclinic`.
* *closed* (160): `C01_infinite_refuted`, `C09_assignment_succeeds`, `C09_atoms_roundtrip`, `C10_small_systems_padded`, `C11_repeat`, `C12_add_ghosts_refuted`, `C12_counters`, `C12_ghost_first_refuted`, `C13_ase`, `C13_ghost_writeback_refuted`, `C13_lammps_refuted`, `C13_set_get_atom`, `C14_double_refuted`, `C15_cutoff_neighbours`, `C15_membership`, `C16_symmetric`, `C17_cutoff_filter`, `C17_number_refuted`, `C17_sann_refuted`, `C17_voronoi_refuted`, `C18_inside_box_missed_refuted`, `C18_inside_box_refuted`, `C18_snap_refuted`, `C18_two_cells_refuted`, `C21_sann_reads_outside_refuted`, `C21_sann_skips_refuted`, `C22_overrun_iff`, `C22_overrun_refuted`, `C23_history_independent`, `C24_bad_arguments_rejected`, `C24_stale_flag_refuted`, `C24_unknown_method_refuted`, `C29_list_not_atomic_refuted`, `C29_out_of_range_rejected`, `C29_set_then_get`, `C30_adaptive_keeps_flag`, `C30_stale_voronoi_refuted`, `C32_threshold_refuted`, `C32_what_is_counted`, `C33_classification`, `C33_cluster`, `C33_invalid_rejected`, `C33_succeeds`, `C34_any_graph`, `C34_connected_components`, `C34_succeeds`, `C35_ids_and_largest_size`, `C36_empty_selection_refuted`, `C36_flag_marks_largest`, `C36_nothing_selected`, `C38_cluster_atoms_ends`, `C38_each_selected_atom_once`, `C38_terminates`, `C39_adaptive_succeeds`, `C39_counts`, `C39_lattice_succeeds_iff`, `C40_exclusive`, `C40_shapes`, `C41_after_reset`, `C41_same_geometry`, `C42_counts`, `C42_shells`, `C42_without_search`, `C44_ghost_neighbour`, `C45_call`, `C45_counted`, `C45_total_refuted`, `C47_no_radius`, `C48_bad_q`, `C50_counts`, `C50_total_one`, `C51_one_cell`, `C53_blank_refuted`, `C53_key_refuted`, `C54_crlf_refuted`, `C54_short`, `C54_split`, `C55_blocks`, `C55_errors`, `C55_negative`, `C55_outside`, `C56_add`, `C56_expression`, `C56_operand_refuted`, `C56_self_refuted`, `C56_slice`, `C56_sum`, `C57_all`, `C57_ascending`, `C57_ascending_refuted`, `C57_descending_refuted`, `C57_descending_system_refuted`, `C57_random`, `C57_unknown`, `C58_blocks_back`, `C58_export`, `C58_ids_only_refuted`, `C58_load`, `C58_loaded_data`, `C58_no_ids_refuted`, `C58_timestep_refuted`, `C58_unloaded`, `C60_back`, `C60_errors`, `C60_list`, `C60_mdtraj`, `C60_read`, `C60_sorted`, `C60_system`, `C61_bounds`, `C61_counts`, `C62_surface_flag`, `C64_formats_refuted`, `C64_read_fails`, `C64_write_fails`, `C65_convert_refuted`, `C65_known`, `C65_second_list`, `C67_appended`, `C67_last_search_refuted`, `C67_second_search`, `C70_direct`, `C70_ghost_neighbour`, `C72_ghost_neighbour`, `C72_on_the_fly`, `C73_bonds_refuted`, `C73_ignored`, `C73_kept`, `C73_memory_refuted`, `C73_neighbors`, `C73_new`, `C73_per_neighbor`, `C73_reads_back`, `C73_refused`, `C73_refuted`, `C74_ghosts_dropped`, `C74_large`, `C74_searches_compute`, `C74_small`, `C74_small_again`, `C75_filtered`, `C75_nobody`, `C75_pressed`, `C75_unfiltered`, `C76_by_number`, `C76_commands`, `C76_default_refuted`, `C76_dictionary`, `C76_no_potential`, `C76_numbered`, `C76_unnumbered`, `C77_isolated`, `C77_only_cutoffs`, `C77_refuted`, `C78_meaningless`, `C78_parameter`, `C78_unknown_refuted`, `C78_values`, `C79_lists`, `C79_range`.
* *primitive floats* (22): `C37_small_system_refuted`, `C39_few_atoms_refuted`, `C40_order_of_atoms_refuted`, `C40_ring6_refuted`, `C41_second_call_refuted`, `C43_few_atoms_refuted`, `C44_small_systems_refuted`, `C49_small_systems_refuted`, `C55_negative_refuted`, `C58_edit_lost_refuted`, `C58_single_refuted`, `C61_at_least_refuted`, `C61_exponent_refuted`, `C69_double_face_refuted`, `C70_direct_refuted`, `C70_planar_refuted`, `C70_small_cell_refuted`, `C71_pairing_refuted`, `C72_on_the_fly_refuted`, `C72_small_cell_refuted`, `C74_dangling_refuted`, `C74_small_refuted`.
* *reals* (3): `C13_crystal`, `C51_atoms`, `C51_errors`.

## 7. Mutation tests

`seeded/LOG.jsonl` has one line per wrong program tried against the theorems: the definition, the edit, the claim it breaks and the theorems or lemmas that failed. Edits marked as repaired code turn a refuted behaviour into the documented one; there the refutation or the characterisation fails.

