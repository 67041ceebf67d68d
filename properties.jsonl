{"id": "C01", "title": "A stack of files reads like one concatenated file", "statement": "Reading rows start:stop:step of a FileStack returns exactly the rows that Python slicing [start:stop:step] of the concatenation of all files (in stack order) would return, in the same order, whatever the sizes of the member files (including empty ones) and wherever the slice boundaries and strides fall relative to file boundaries.", "quantifier": "all lists of files with arbitrary (also zero) sizes, all 0<=start<=stop<=size and all step>=1", "why_tests_cant": "the stride phase that carries over from one file to the next depends on every file size and on the step; tests use two files and a few slices", "anchors": ["nbodykit/io/stack.py:FileStack.read", "nbodykit/io/tools.py:get_slice_size", "nbodykit/io/tools.py:global_to_local_slice", "nbodykit/io/tools.py:get_file_slice"]}
{"id": "C02", "title": "Array-like indexing of a file returns exactly the selected rows in order", "statement": "Indexing a file object with a boolean mask that selects something returns precisely the rows where the mask is True, in file order; indexing with a non-empty list of non-negative row numbers returns those rows in the listed order including repetitions; an integer index returns that single row, a negative one counts from the end; any Python slice with positive step whose bounds are in order returns the slice.", "quantifier": "all masks with at least one True, all non-empty integer lists, all in-range integers, all slices with positive step and start not past stop, all file contents, any reader that reads forward slices (stacks and binary files proved to be such readers)", "why_tests_cant": "the grouping into consecutive runs has to be right for every mixture of runs, gaps, repeats and descents", "anchors": ["nbodykit/io/base.py:FileType.__getitem__", "nbodykit/io/base.py:find_slice_chunks"]}
{"id": "C03", "title": "Columns of a flat binary file never overlap and are read back row-exact", "statement": "For a binary file in which every column is stored as one contiguous block in dtype order, reading any columns over start:stop:step returns the bytes that belong to those rows of those columns, no two columns share a byte, and the number of rows inferred from the file length is exact or an error is raised.", "quantifier": "all dtypes (list of item sizes), header sizes, row counts, slices", "why_tests_cant": "offset arithmetic ranges over all column orders and sizes", "anchors": ["nbodykit/io/binary.py:getsize", "nbodykit/io/binary.py:BinaryFile._default_byte_offset", "nbodykit/io/binary.py:BinaryFile.read"]}
{"id": "C04", "title": "Scatter then gather is the identity and gather concatenates in rank order", "statement": "ScatterArray from rank 0 distributes every item of the array to exactly one rank, in order, with sizes that differ by at most one when no counts are given and equal to the given counts otherwise (counts that do not add up are refused); GatherArray to any rank or to all returns the rank-order concatenation; so Gather(Scatter(x)) = x; arrays of different type are refused when gathered to rank 0 or to all.", "quantifier": "all numbers of ranks, all array lengths and counts, all gather roots", "why_tests_cant": "needs arbitrary process counts and a root other than 0", "anchors": ["nbodykit/utils.py:GatherArray", "nbodykit/utils.py:ScatterArray"]}
{"id": "C05", "title": "Front padding gives every rank exactly the preceding items", "statement": "FrontPadArray(array, front), where every rank passes its own front, returns on each rank its own items preceded by exactly the `front` items which precede them in the global (rank-order) array; if some rank asks for more items than precede it, every rank raises instead of returning shifted data. Empty ranks in the middle do not break it.", "quantifier": "all distributions of items over ranks (including empty ranks), all per-rank front >= 0", "why_tests_cant": "failure depends on small/empty ranks in the middle of long chains", "anchors": ["nbodykit/utils.py:FrontPadArray"]}
{"id": "C06", "title": "Rows of a file catalog are spread over ranks without loss or duplication", "statement": "Loading a file on any number of ranks puts each row on exactly one rank in rank order with balanced sizes; query_range(a,b) of a loaded catalog holds exactly the rows a..b of the file, in rank order.", "quantifier": "all file sizes, rank counts, all in-range query ranges", "why_tests_cant": "tests run on few ranks and never nest range queries three deep", "anchors": ["nbodykit/source/catalog/file.py:FileCatalogBase.__init__", "nbodykit/source/catalog/file.py:FileCatalogBase.query_range", "nbodykit/source/catalog/file.py:FileCatalogBase.get_hardcolumn"]}
{"id": "C07", "title": "Random numbers do not depend on the number of processes", "statement": "For a fixed seed, total size and chunk size, the rank-order concatenation of the values drawn through MPIRandomState is the serial chunk-by-chunk sequence and hence the same for every way of distributing the items (with their per-item arguments) over ranks, for every sampler whose first values do not depend on how many are drawn; each rank gets as many values as it has items.", "quantifier": "all rank counts and size distributions, all chunk sizes, all prefix-stable samplers and arguments", "why_tests_cant": "invariance is over an unbounded set of process layouts", "anchors": ["nbodykit/mpirng.py:MPIRandomState"]}
{"id": "C08", "title": "Worker groups are disjoint and cover the requested ranks", "statement": "Splitting N processes into groups of `cpus_per_task` workers never puts a process into two groups, never uses the master rank 0, gives full groups exactly the requested size, gives distinct colours to distinct groups, and with use_all_cpus covers every worker rank.", "quantifier": "all N and cpus_per_task >= 1, both settings of use_all_cpus", "why_tests_cant": "depends on remainder arithmetic for every N, n", "anchors": ["nbodykit/batch.py:split_ranks"]}
{"id": "C09", "title": "Every task runs exactly once on one worker, under every schedule", "statement": "In a TaskManager run, whatever the order in which worker messages arrive at the master, each task is handed out exactly once, no worker is given a second task before finishing the first, every worker eventually gets the exit message, the run terminates, and map() returns results in task order.", "quantifier": "all interleavings of worker messages, any number of workers and tasks (including zero tasks and more workers than tasks)", "why_tests_cant": "message schedules are not enumerable by tests", "anchors": ["nbodykit/batch.py:TaskManager._get_tasks", "nbodykit/batch.py:TaskManager._distribute_tasks", "nbodykit/batch.py:TaskManager.iterate", "nbodykit/batch.py:TaskManager.map"]}
{"id": "C10", "title": "Scoped settings are restored on leaving the scope", "statement": "Leaving a `with set_options(...)` block, normally or by exception, restores the options in force when the block object was made; an unknown option name changes nothing; the cache always has the size the options say; leaving `with CurrentMPIComm.enter(comm)` normally restores the communicator that was current on entry (as long as no exception has left such a scope inside it); calls without comm inside the scope behave as the same calls with comm passed explicitly.", "quantifier": "all nestings of scopes, all bodies built from scopes, handlers, calls and raises", "why_tests_cant": "nesting depth and exceptional exits are unbounded", "anchors": ["nbodykit/__init__.py:CurrentMPIComm", "nbodykit/__init__.py:set_options"]}
{"id": "C11", "title": "A catalog behaves like a map from column name to value", "statement": "After any history, catalog[name] returns the last value assigned to name through the catalog or a view of it, else the stored (hard) column, else the default column; assignment changes no other column, catalog or attribute and is refused for a wrong length; deleting an assigned column that is not a hard column uncovers the default or nothing; deleting a hard or default column, or a missing one, is refused and changes nothing; columns lists exactly the gettable names once, sorted.", "quantifier": "all histories of creations, assignments, deletions, views, copies, slices, selections and attribute changes", "why_tests_cant": "histories are unbounded", "anchors": ["nbodykit/base/catalog.py:CatalogSourceBase.__getitem__", "nbodykit/base/catalog.py:CatalogSourceBase.__setitem__", "nbodykit/base/catalog.py:CatalogSourceBase.__delitem__", "nbodykit/base/catalog.py:CatalogSourceBase.columns"]}
{"id": "C12", "title": "Slicing a catalog selects the same rows in every column and reports the right size", "statement": "catalog[index] for a Python slice, boolean mask or integer list has size equal to the number of selected rows; each non-default column equals the parent's column indexed by the same index and each default column is the same constant at the new size; it is refused exactly when numpy indexing is; a list of column names keeps those columns, apart from which only the CatalogSource defaults remain; the parent is unchanged.", "quantifier": "all slices with any start/stop/step, masks and integer lists, in all reachable states", "why_tests_cant": "the size is computed by a formula separate from the data selection", "anchors": ["nbodykit/base/catalog.py:CatalogSourceBase._get_slice", "nbodykit/base/catalog.py:CatalogSourceBase.__getitem__"]}
{"id": "C13", "title": "Global slicing equals slicing the concatenated catalog", "statement": "catalog.gslice(start, stop, step) with positive or absent step yields exactly the rows of Python's global[start:stop:step], where global is the rank-order concatenation, in that order; with redistribute=True rank sizes differ by at most one, with redistribute=False each rank keeps its own selected rows; a negative step yields the same rows in ascending order; step 0 raises ValueError.", "quantifier": "all communicator sizes, all distributions of rows, all start/stop/step", "why_tests_cant": "the mask/scatter path depends on every rank size", "anchors": ["nbodykit/base/catalog.py:CatalogSource.gslice"]}
{"id": "C14", "title": "Sorting a catalog is a stable lexicographic sort of all rows by the listed keys", "statement": "catalog.sort(keys) returns, globally in rank order, a stable lexicographic sort of the rows by the values of the key columns (the first key most significant, ascending, or descending with reverse=True), every row complete and every rank keeping its number of rows, for integer keys (ascending) and float keys without sign bit; duplicated or unknown keys, unknown usecols and keys of other types raise ValueError.", "quantifier": "all catalogs, distributions, key lists and usecols; any sorter meeting mpsort's contract", "why_tests_cant": "needs all values, including negative keys, and tie patterns", "anchors": ["nbodykit/base/catalog.py:CatalogSource.sort", "nbodykit/base/catalog.py:CatalogSource._sort_data"]}
{"id": "C15", "title": "Painting deposits every particle exactly once whatever the chunk throttling", "statement": "When painting a catalog to a mesh with a positive paint_chunk_size, the loop ends for every throttle pattern; it either raises RuntimeError (only after a throttled attempt) or every selected particle of every rank is deposited exactly once with mass weight*value, in the mesh and, when interlacing, in the shifted mesh, and N, W, W2 and the shot noise are those of the selected particles of all ranks; the normalised field has mean sum(w*v)/sum(w), hence 1 without a Value column, and is 1 everywhere when the total weight is not positive; painting with out= adds to the given field.", "quantifier": "all particle counts per rank, selections, weights and values, all chunk sizes >= 1 and throttle patterns, all windows (unit-mass ones for the mean)", "why_tests_cant": "throttle patterns depend on memory imbalance and cannot be enumerated", "anchors": ["nbodykit/source/mesh/catalog.py:CatalogMesh.to_real_field"]}
{"id": "C16", "title": "apply() never changes the original mesh, and actions run once each in order", "statement": "mesh.apply(f) returns a new mesh with f added after the functions of the old one and changes no existing mesh (functions, attrs, source, computed field), and refuses modes and kinds that do not fit; computing a mesh applies its functions to the field of its source exactly once each, in the order added, each in the space it was declared for, and returns the requested mode; window compensation occurs exactly once in a compensated catalog mesh and in every mesh derived from it by views and apply, never in an uncompensated one; mesh attrs override those of the field.", "quantifier": "all sequences of operations on meshes, all functions and requested modes; r2c and c2r mutually inverse; for the compensation count, sequences without members of species meshes", "why_tests_cant": "chains of views are unbounded; double application shows up only for particular combinations", "anchors": ["nbodykit/base/mesh.py:MeshSource.apply", "nbodykit/base/mesh.py:MeshSource._paint_XXX", "nbodykit/source/mesh/catalog.py:CatalogMesh.actions", "nbodykit/source/mesh/species.py:MultipleSpeciesCatalogMesh.__getitem__"]}
{"id": "C17", "title": "Pair-count results can be merged in any grouping", "statement": "Adding pair-count results gives, per bin, the sum of the pair counts and the pair-weighted means of separations and weights, that is the result of counting all the pairs at once, whatever the grouping and order of the additions over ranks and whether the first catalog is counted in one or ten chunks; bins without pairs report zero.", "quantifier": "all numbers of ranks and chunks, all groupings, all counts", "why_tests_cant": "grouping/order over arbitrary numbers of ranks", "anchors": ["nbodykit/algorithms/pair_counters/corrfunc/base.py:CorrfuncResult.__add__", "nbodykit/algorithms/pair_counters/corrfunc/base.py:MPICorrfuncCallable.__call__"]}
{"id": "C18", "title": "Cloning a cosmology changes exactly the parameters that were given", "statement": "cosmo.clone(name=value) yields a cosmology in which the named parameter has the new value under the name CLASS uses, conflicting old specifications are gone and every other parameter is unchanged; clone() without arguments gives equal parameters; contradictory arguments are refused by clone and by the constructor; arguments that contradict nothing are accepted, and the result can be cloned again.", "quantifier": "all parameter dictionaries that CLASS can read, all names except T0_cmb, Omega0_k, Omega_lambda and Omega0_lambda (for these see C100, C104); neutrino masses, nonlinear and the fluid parameters as translated", "why_tests_cant": "the alias/conflict tables interact; tests only try a few names", "anchors": ["nbodykit/cosmology/cosmology.py:Cosmology.clone", "nbodykit/cosmology/cosmology.py:compile_args", "nbodykit/cosmology/cosmology.py:merge_args", "nbodykit/cosmology/cosmology.py:check_args", "nbodykit/cosmology/cosmology.py:CONFLICTS"]}
{"id": "C19", "title": "Global labels of a distributed sorted array are dense and rank-independent", "statement": "unique_labels on a globally sorted distributed array gives every item the number of distinct smaller values of all ranks, for every distribution, including values that span several ranks and empty ranks; these labels are equal exactly for equal values, follow their order and have no gaps.", "quantifier": "all sorted integer sequences with at least one item and all distributions over ranks", "why_tests_cant": "spill-over across several (possibly empty) ranks", "anchors": ["nbodykit/utils.py:DistributedArray.unique_labels", "nbodykit/utils.py:LinearTopology"]}
{"id": "C20", "title": "Distributed bincount equals the global bincount", "statement": "bincount of a distributed sorted label array without gaps returns on each rank the totals over all ranks of the labels it holds; with gaps between labels the first bins of a rank may be those of labels of no item; with shared_edges=False the ranks together give the total of every label from 0 to the largest exactly once, in order.", "quantifier": "all sorted arrays of non-negative labels with at least one item, all distributions over ranks, weights in any commutative monoid", "why_tests_cant": "edge sharing over many ranks", "anchors": ["nbodykit/utils.py:DistributedArray.bincount"]}
{"id": "C21", "title": "Friends-of-friends labels are dense, size ordered and discard only groups that are too small", "statement": "After FOF.run two particles have the same non-zero label iff they are friends of friends, the label is 0 iff the group has at most nmin members, and the other labels are 1, 2, ... without gaps by decreasing size.", "quantifier": "all link relations, all domain decompositions under which linked particles meet and which get the right local groups, all nmin, all distributions with particles on every rank", "why_tests_cant": "boundary and tie cases over all size histograms", "anchors": ["nbodykit/algorithms/fof.py:_assign_labels", "nbodykit/algorithms/fof.py:FOF"]}
{"id": "C22", "title": "Merging local groups across domains yields the connected components", "statement": "The iterative merge of per-domain group ids terminates and gives two particles the same id iff they are connected through shared (ghost) particles, the id being the smallest particle of the component; when linked particles always meet on some rank and local labels are the local groups, the components are the friends-of-friends groups.", "quantifier": "all domain decompositions and ghost sharing relations", "why_tests_cant": "chains through arbitrarily many domains", "anchors": ["nbodykit/algorithms/fof.py:_fof_merge", "nbodykit/algorithms/fof.py:fof"]}
{"id": "C23", "title": "Rebinning a binned statistic conserves totals", "statement": "reindex by a spacing that rounds to m >= 2 bins of an evenly spaced dimension replaces every m bins by one: fields to sum hold the sum of the finite fine values, others their mean (sum of value*weight over sum of weights when weights are given), a value counts as masked exactly when some variable is not finite; the coarse edges are every m-th fine edge and the coordinates their centres; other dimensions are unchanged; the totals of summed fields along the axis are those of the bins kept, constants stay constant; leftover bins raise ValueError unless force is set; average gives the sum, mean or weighted mean over all bins of the dimension, and removes it; bin_ndarray with nansum conserves the total for all shapes.", "quantifier": "all numbers of dimensions, shapes without empty axes, factors, data (non-finite values included), weights by name or array of finite numbers; integer columns: results that are integers (see C71), not with integer weights; evenly spaced bins with default coordinates (see C72, C73)", "why_tests_cant": "all shapes and factors", "anchors": ["nbodykit/binned_statistic.py:bin_ndarray", "nbodykit/binned_statistic.py:BinnedStatistic.reindex"]}
{"id": "C24", "title": "Slicing a binned statistic keeps data, mask, edges and centres consistent", "statement": "Indexing by integers, slices and at most one list of non-negative integers (the integers adjacent to the list) selects the outer product of the selected bins in data and mask, removes the dimensions indexed by an integer, and gives each kept dimension the lower edges of its selected bins followed by the upper edge of the last, with the centres as coordinates; for contiguous selections these are the edges of the selected bins. take keeps, in ascending order, the bins of each dimension selected by every index and, for masks, the bins where the mask is true throughout. sel by a value takes the first bin with that centre, or the first of the nearest. Lists of names select variables. Too many indices, or integers for all dimensions, raise IndexError.", "quantifier": "all numbers of dimensions, shapes (empty axes included), keys, masks and indices (negative ones for integers, slices and take)", "why_tests_cant": "index combinations unbounded", "anchors": ["nbodykit/binned_statistic.py:BinnedStatistic.__getitem__", "nbodykit/binned_statistic.py:BinnedStatistic.__slice_edges__", "nbodykit/binned_statistic.py:BinnedStatistic.take", "nbodykit/binned_statistic.py:BinnedStatistic.sel"]}
{"id": "C25", "title": "Rebinning is a pure function of its arguments", "statement": "reindex changes no object and no list other than its fields_to_sum argument, to which it appends the names of the object's own fields to sum; the result depends only on the set of these names and on the arguments; in a history of calls on objects without fields to sum of their own no list changes, and every call returns what it would alone.", "quantifier": "all histories of calls, default and explicit arguments (objects with own fields to sum: see C76)", "why_tests_cant": "state leaking between calls needs a history", "anchors": ["nbodykit/binned_statistic.py:BinnedStatistic.reindex"]}
{"id": "C26", "title": "Saved metadata is restored exactly", "statement": "Encoding and decoding returns the same value for None, booleans, integers, floats (also infinite or nan), strings, lists, dictionaries with ordinary string keys, complex numbers with finite imaginary part, simple and structured arrays (shape and type included) whose extent is zero at most along the last axis, float and complex quantities of any such shape, cosmologies, and all nestings of these; numpy integers and floats come back as the same Python numbers, tuples as lists.", "quantifier": "all nested values of these kinds (the rest: C131-C136)", "why_tests_cant": "nested structures are unbounded", "anchors": ["nbodykit/utils.py:JSONEncoder", "nbodykit/utils.py:JSONDecoder"]}
{"id": "C27", "title": "Partitioning a text file preserves its rows", "statement": "For every block size, the size of a CSVFile is the number of its rows (lines after skiprows, without blank ones when these are skipped, at most nrows) and reading start:stop:step returns those rows, whenever a line begins in the last block, blank lines are empty, single and neither first in a later block nor among the skipped rows, and nrows is not reached at the end of a block or just before an unterminated last line; skiprows may exceed the first block. A file of one block without blank lines always qualifies.", "quantifier": "all byte strings, block sizes >= 1, skiprows up to the number of lines, nrows, slices (the rest: C126-C130)", "why_tests_cant": "block boundaries can hit any byte of any file", "anchors": ["nbodykit/io/csv.py:make_partitions", "nbodykit/io/csv.py:CSVFile", "nbodykit/io/csv.py:CSVFile.read"]}
{"id": "C28", "title": "Fiber assignment leaves no two assigned objects in collision", "statement": "For groups of at least two objects, objects in no group keep their fibers, two objects of a group that keep their fibers are further apart than the radius, every collided object reports as its neighbour the nearest object of its group that keeps its fiber, and in groups of three or more only objects with another one within the radius are collided. When objects within the radius share a group (as in friends-of-friends), no two objects of the catalog within the radius both keep their fibers. The results are in the order of the input on every rank.", "quantifier": "all positions, groups, radii, random choices, distributions over ranks and contents of new memory (the rest: C137, C138)", "why_tests_cant": "all graphs and random choices", "anchors": ["nbodykit/algorithms/fibercollisions.py:FiberCollisions._assign_fibers", "nbodykit/algorithms/fibercollisions.py:FiberCollisions._assign_multiplets"]}
{"id": "C29", "title": "Cylindrical groups: centrals are exactly the greedy maximal set", "statement": "CylindricalGroups returns for every object, in the order and distribution of the sorted catalog with the row of the object's original index: an object is a central (type 0) iff it is in the cylinder of no central ranked above it; centrals are numbered 0, 1, ... from the one ranked first; every other object (type 1) carries the number of the central ranked first among those whose cylinder it is in; num_cgm_sats counts the satellites carrying the number of a central and is 0 for satellites.", "quantifier": "all positions (in the box when periodic, none at the origin when the line of sight is radial), rankings, radii, lines of sight, domain decompositions that cover the neighbours, with an object on every rank (the rest: C139-C142)", "why_tests_cant": "all graphs", "anchors": ["nbodykit/algorithms/cgm.py:CylindricalGroups.run"]}
{"id": "C30", "title": "Binned mode sums count every Fourier mode exactly once", "statement": "FFTPower averages every mode of the full box exactly once although only half of them is stored: a (k, mu) bin holds the modes with lower edge <= k < upper edge whose stored representative (the mode itself, or its opposite if it is not stored) has mu in the bin (the last mu bin including mu = 1); modes, k, mu and power are the number of these modes and the averages over them; in 1d mode and for the multipoles a bin holds all modes of the shell; the power of multipole ell is the average of (2 ell + 1) L_ell(mu) P over all modes of the shell. The distribution of the mesh over the ranks does not matter.", "quantifier": "all mesh sizes (odd/even), increasing non-negative k edges, Nmu >= 1, Hermitian fields, lines of sight of length at most 1, slab decompositions; multipoles: shells without Nyquist modes along the line of sight, or even ell with the line of sight along an axis (the rest: C143, C146, C147)", "why_tests_cant": "parity and symmetry-plane cases over all sizes", "anchors": ["nbodykit/algorithms/fftpower.py:project_to_basis", "nbodykit/meshtools.py:SlabIterator", "nbodykit/meshtools.py:MeshSlab"]}
{"id": "C31", "title": "Projected power weights account for every mode", "statement": "ProjectedFFTPower averages every mode of the projected mesh exactly once although only half of them is stored: modes is the number of modes with lower edge <= k < upper edge, k and the real part of power (times the area) the averages over them.", "quantifier": "all projected meshes with an even last axis (or one of length 1), edges and Hermitian fields (the rest: C148, C149)", "why_tests_cant": "parity of the last axis", "anchors": ["nbodykit/algorithms/fftpower.py:ProjectedFFTPower.run"]}
{"id": "C32", "title": "Three-point multipoles equal the triple sum independent of bunching and decomposition", "statement": "Every multipole corr_l(r1, r2) of the three-point function equals (2 l + 1)/(4 pi)^2 times the sum over all objects p, and all objects s and t whose distance from p is positive and in bin r1 and r2 (lower edge < r <= upper edge, nearest image if periodic), of w_p w_s w_t P_l(cosine of the angle at p), for every order of the poles, bunches of pairs handed to the callback and decomposition over the ranks.", "quantifier": "all catalogs, weights, sorted edges, distinct poles, bunches and decompositions that bring all objects within the largest edge to the rank of a primary, with at least ten primaries on the fullest rank (the rest: C150, C151); spherical harmonics that satisfy the addition theorem", "why_tests_cant": "algebraic identity over all particle sets", "anchors": ["nbodykit/algorithms/threeptcf.py:Base3PCF._run"]}
{"id": "C33", "title": "Species columns route to the right species only", "statement": "In a multi-species catalog, catalog['s/c'] reads column c of species s; assignment of a scalar or of an array of the right size is accepted, later reads give it until the same column is named again, and nothing else changes; a deleted column is gone; columns lists exactly the readable names, each once; species names are unique.", "quantifier": "all species sets, operation histories and names; species and column names without a slash (with one: C110)", "why_tests_cant": "histories and name shapes unbounded", "anchors": ["nbodykit/source/catalog/species.py:MultipleSpeciesCatalog", "nbodykit/source/catalog/species.py:split_column"]}
{"id": "C34", "title": "Multi-species painting combines the species with the right weights", "statement": "When every species has positive total weight, the normalised combined field is the weight-fraction average of the normalised species fields, has mean 1 when there are no values, its N is the sum of the N of the species, and its reported shot noise equals V*sum(w^2)/(sum w)^2 over all species together.", "quantifier": "all numbers of species, particles and weights, all throttle patterns", "why_tests_cant": "identity over all weights", "anchors": ["nbodykit/source/mesh/species.py:MultipleSpeciesCatalogMesh.to_real_field"]}
{"id": "C35", "title": "Redshift histogram counts every object in range once", "statement": "RedshiftHistogram reports for every bin [e_i, e_{i+1}) the total weight of the objects of all ranks with redshift in it (divided by the shell volume for nbar); each redshift in [e_0, e_n) belongs to exactly one bin; the automatic bins have equal width, start at the lowest redshift and reach the highest.", "quantifier": "all redshifts, weights, ordered edges and distributions (last edge: C115, integer bins: C116, empty ranks: C117)", "why_tests_cant": "edge values", "anchors": ["nbodykit/algorithms/zhist.py:RedshiftHistogram.__init__", "nbodykit/algorithms/zhist.py:RedshiftHistogram.run"]}
{"id": "C36", "title": "Analytic random counts add up", "statement": "Analytic uniform-random filling factors are non-negative and add up: shells to the volume fraction of the whole range, the mu bins of a shell to the shell, rings to the cylinder. For the mean counts of two unclustered samples the natural estimate is zero.", "quantifier": "all edges and box sizes; modes 1d, 2d and projected (angular: C99, one sample: C98)", "why_tests_cant": "identities over all edges", "anchors": ["nbodykit/algorithms/paircount_tpcf/estimators.py:AnalyticUniformRandoms", "nbodykit/algorithms/paircount_tpcf/estimators.py:NaturalEstimator"]}
{"id": "C37", "title": "Domain decomposition loses and duplicates no pairs", "statement": "SimulationBoxPairCount in modes 1d, 2d and projected reports for every bin the number, mean separation and weight of all pairs of the two catalogs with periodic (or plain) separation in the bin, with the line of sight along the chosen axis: no pair is lost or counted twice by the decomposition over ranks.", "quantifier": "all positions, weights, distributions over ranks, edges, domain grids that keep the contract of GridND", "why_tests_cant": "all geometries", "anchors": ["nbodykit/algorithms/pair_counters/domain.py:decompose_box_data", "nbodykit/algorithms/pair_counters/base.py"]}
{"id": "C38", "title": "Process grids use all processes", "statement": "split_size_3d(s) returns three positive factors whose product is s; the first is the largest divisor of s not above int(s**(1/3))+1, the second the largest divisor of the rest not above its int(sqrt)+1.", "quantifier": "all s >= 1", "why_tests_cant": "all s", "anchors": ["nbodykit/utils.py:split_size_3d"]}
{"id": "C39", "title": "The survey box encloses all objects", "statement": "The box set up for a survey is an integer length not below the padded extent of the selected objects of the species that defines it and less than one above, centred between the extremes, and all these objects lie in [-L/2, L/2] of it; a given size is kept, and holds all objects exactly when no two are further apart; only a species without selected objects is refused.", "quantifier": "all coordinates, selections, distributions, paddings >= 0; each axis", "why_tests_cant": "all positions", "anchors": ["nbodykit/algorithms/convpower/catalog.py:FKPCatalog._define_bbox", "nbodykit/algorithms/convpower/catalogmesh.py:FKPCatalogMesh.RecenteredPosition"]}
{"id": "C40", "title": "A survey power estimate can be run again", "statement": "Running the convolved power algorithm a second time on the same object gives the same result as the first time.", "quantifier": "all inputs and histories of run()", "why_tests_cant": "histories", "anchors": ["nbodykit/algorithms/convpower/fkp.py:ConvolvedFFTPower.run", "nbodykit/algorithms/convpower/fkp.py:ConvolvedFFTPower.shotnoise"]}
{"id": "C41", "title": "Only valid line-of-sight axis names are accepted", "statement": "For integers, other numbers and one-letter strings the pair counter accepts los exactly when it is 'x','y','z', an integer in -3..2 or a number equal to 0, 1 or 2, and maps it to the axis it names; that axis becomes the last column of the positions.", "quantifier": "all integers, rational numbers and one-letter strings", "why_tests_cant": "all strings", "anchors": ["nbodykit/algorithms/pair_counters/simbox.py:SimulationBoxPairCount.__init__"]}
{"id": "C42", "title": "Box positions are shifted into the symmetric range or refused", "statement": "Positions strictly inside (0,L) on all axes are moved by -L/2; otherwise positions strictly inside (-L/2,L/2) are unchanged; anything else is refused.", "quantifier": "all positions and box sizes", "why_tests_cant": "boundary values", "anchors": ["nbodykit/algorithms/pair_counters/simbox.py:shift_to_box_center"]}
{"id": "C43", "title": "Reconstruction uses a unit line of sight and mass-conserving combinations", "statement": "FFTRecon uses a unit line of sight unchanged, keeps the direction of any other and refuses zero; LGS, LRR and LF2 = 3/7 LGS + 4/7 LRR combine the shifted data and randoms in units of their mean densities as documented, for every chunk size, and have mean zero; along a coordinate axis the displacement is boosted by 1+f.", "quantifier": "all catalogs, displacements, distributions, chunk sizes >= 1 and mass-conserving painting kernels", "why_tests_cant": "all vectors", "anchors": ["nbodykit/algorithms/fftrecon.py:FFTRecon.__init__", "nbodykit/algorithms/fftrecon.py:FFTRecon._compute_s", "nbodykit/algorithms/fftrecon.py:FFTRecon.work_with"]}
{"id": "C44", "title": "Poisson-sampled particles lie in the cell they were drawn for", "statement": "For equal cell sizes on all axes (or a last axis with the smallest cells) the particles drawn from a density mesh come in the order of the cells, every cell receives its number of particles, and they lie in it; the result does not depend on how the mesh is distributed; the ordering key orders the cells lexicographically.", "quantifier": "all meshes, numbers per cell and random numbers in [0,1) (other cells: C122)", "why_tests_cant": "anisotropic cells", "anchors": ["nbodykit/mockmaker.py:poisson_sample_to_points"]}
{"id": "C45", "title": "Galaxy type codes match the published mapping", "statement": "After populating halos, attrs['gal_types'][t] is the integer stored in the gal_type column for every galaxy type t if and only if the types after the first are in alphabetical order (always for two types); distinct types have distinct codes.", "quantifier": "all lists of distinct galaxy types (other orders: C112)", "why_tests_cant": "type orders", "anchors": ["nbodykit/source/catalog/halos.py:_populate_mock", "nbodykit/source/catalog/halos.py:_enum_gal_types"]}
{"id": "C46", "title": "A uniform catalog has one well-defined size", "statement": "The sizes held by the ranks of a random catalog, or of a uniform catalog made with a seed, add up to the requested or drawn number, for any number of ranks.", "quantifier": "all rank counts and non-zero totals", "why_tests_cant": "unseeded multi-rank draws", "anchors": ["nbodykit/source/catalog/uniform.py:RandomCatalog", "nbodykit/source/catalog/uniform.py:UniformCatalog"]}
{"id": "C47", "title": "Excluding a data set from an HDF file excludes nothing else", "statement": "With exclude=[names] and header, everything in the named data sets and groups disappears from the column list; everything else stays if no component of its path merely begins like the last component of an excluded name; exactly the names found in the file or below the root are accepted.", "quantifier": "all dataset trees and exclude lists (lookalikes: C113, absolute header: C114)", "why_tests_cant": "name prefix coincidences", "anchors": ["nbodykit/io/hdf.py:HDFFile.__init__", "nbodykit/io/hdf.py:find_datasets"]}
{"id": "C48", "title": "Modifying the attributes of a copy or slice does not change the original", "statement": "Programs that work only with the result of copy(), of a column selection or of a slice (and what they derive from it) leave the columns of everything made before unchanged, and programs that never mention the result leave its columns unchanged; for copies and column selections the same holds for attrs.", "quantifier": "all histories before and all programs after", "why_tests_cant": "aliasing over histories", "anchors": ["nbodykit/base/catalog.py:CatalogSourceBase.__finalize__", "nbodykit/base/catalog.py:CatalogSourceBase.copy", "nbodykit/base/catalog.py:CatalogSourceBase.attrs"]}
{"id": "C49", "title": "Conversion to astropy keeps the dark energy equation of state", "statement": "to_astropy() yields a cosmology with the same w0 and wa.", "quantifier": "all (w0, wa) with w0 different from -1 or wa equal to 0 (the rest: C107)", "why_tests_cant": "branch combinations over reals", "anchors": ["nbodykit/cosmology/cosmology.py:Cosmology.to_astropy"]}
{"id": "C50", "title": "Data bounds are the global extremes", "statement": "Whenever get_data_bounds returns, it returns the minimum and maximum over the selected values of all ranks, independent of chunking and of ranks without data; it does return when every rank's rows fit in one chunk and every rank with rows has a selected one.", "quantifier": "all data, selections, chunk sizes, rank distributions", "why_tests_cant": "empty ranks and chunks", "anchors": ["nbodykit/utils.py:get_data_bounds"]}
{"id": "C51", "title": "Every index accepted by an array is accepted by a file", "statement": "Indexing a file with a negative step, with start past stop, with an all-False mask or with an out-of-range row number behaves as on the array of its rows (reversed rows, no rows, no rows, an error).", "quantifier": "all indices numpy accepts", "why_tests_cant": "the failing shapes of index are corner cases outside the tested slices", "anchors": ["nbodykit/io/base.py:FileType.__getitem__", "nbodykit/io/stack.py:FileStack.read", "nbodykit/io/binary.py:BinaryFile.read"]}
{"id": "C52", "title": "Scatter and gather work for every root", "statement": "GatherArray(root=r) refuses arrays of different type, and ScatterArray(root=r) distributes the array held by rank r, for every rank r.", "quantifier": "all roots", "why_tests_cant": "tests only use root 0", "anchors": ["nbodykit/utils.py:GatherArray", "nbodykit/utils.py:ScatterArray"]}
{"id": "C53", "title": "Nested range queries of a file catalog compose", "statement": "query_range applied to the result of query_range selects rows either always relative to the physical file or always relative to the parent result, and a range outside the parent region is refused.", "quantifier": "all nestings of query ranges", "why_tests_cant": "needs three nested queries", "anchors": ["nbodykit/source/catalog/file.py:FileCatalogBase.query_range"]}
{"id": "C54", "title": "Random draws are layout independent for every sampler", "statement": "Every method of MPIRandomState returns the same global sequence for every distribution over ranks, including choice without replacement.", "quantifier": "all samplers", "why_tests_cant": "needs a sampler that is not prefix stable and several layouts", "anchors": ["nbodykit/mpirng.py:MPIRandomState.choice", "nbodykit/mpirng.py:MPIRandomState._call_rngmethod"]}
{"id": "C55", "title": "An unseeded uniform catalog has one well-defined size", "statement": "The sizes of the ranks of a UniformCatalog made without a seed add up to a number drawn by some rank.", "quantifier": "all draws", "why_tests_cant": "needs unseeded multi-rank runs", "anchors": ["nbodykit/source/catalog/uniform.py:UniformCatalog"]}
{"id": "C56", "title": "Data bounds are computed for every distribution and selection", "statement": "get_data_bounds returns for every distribution of rows over ranks and every selection that selects at least one row.", "quantifier": "all distributions, selections and chunk sizes", "why_tests_cant": "needs uneven ranks with more rows than one chunk", "anchors": ["nbodykit/utils.py:get_data_bounds"]}
{"id": "C57", "title": "The communicator is restored when the body of its scope raises", "statement": "Leaving `with CurrentMPIComm.enter(comm)` by an exception restores the communicator that was current on entry.", "quantifier": "all bodies, nestings and handlers", "why_tests_cant": "exceptional exits at every nesting depth", "anchors": ["nbodykit/__init__.py:CurrentMPIComm.enter"]}
{"id": "C58", "title": "Attributes of a slice are independent of the parent", "statement": "Changing attrs of catalog[mask] or catalog[a:b] leaves the attributes of the parent as they were.", "quantifier": "all histories", "why_tests_cant": "aliasing over histories", "anchors": ["nbodykit/base/catalog.py:CatalogSourceBase._get_slice", "nbodykit/base/catalog.py:CatalogSourceBase.__finalize__"]}
{"id": "C59", "title": "copy() works for every catalog", "statement": "copy() of a valid catalog succeeds.", "quantifier": "all histories", "why_tests_cant": "needs a catalog whose attrs were never touched", "anchors": ["nbodykit/base/catalog.py:CatalogSourceBase.copy", "nbodykit/base/catalog.py:CatalogSourceBase.attrs"]}
{"id": "C60", "title": "Deleting an override uncovers the hard column", "statement": "Deleting a column that was assigned over a hard column of the class makes the hard column visible again.", "quantifier": "all catalogs and assigned columns", "why_tests_cant": "needs an override of a hard column", "anchors": ["nbodykit/base/catalog.py:CatalogSourceBase.__delitem__"]}
{"id": "C61", "title": "gslice follows Python's order for negative steps", "statement": "catalog.gslice(start, stop, step) returns the rows in the order of Python's slice for negative steps too.", "quantifier": "all distributions and slices", "why_tests_cant": "needs negative steps on several ranks", "anchors": ["nbodykit/base/catalog.py:CatalogSource.gslice"]}
{"id": "C62", "title": "sort(reverse=True) sorts integer columns in descending order", "statement": "catalog.sort(keys, reverse=True) orders rows by descending integer keys.", "quantifier": "all integer columns", "why_tests_cant": "needs reverse sorts of integer columns", "anchors": ["nbodykit/base/catalog.py:_sort_data"]}
{"id": "C63", "title": "sort orders negative floating point values", "statement": "catalog.sort orders rows by ascending float keys of either sign.", "quantifier": "all float columns", "why_tests_cant": "needs columns with at least two negative values", "anchors": ["nbodykit/base/catalog.py:_sort_data"]}
{"id": "C64", "title": "Index numbers all rows once", "statement": "The Index attribute is 0, 1, ..., csize-1 over the rows of all ranks in rank order, each rank holding as many as it has rows.", "quantifier": "all communicator sizes and rank sizes, empty ranks included", "why_tests_cant": "all distributions", "anchors": ["nbodykit/base/catalog.py:CatalogSource.Index"]}
{"id": "C65", "title": "After sort the rows are spread evenly", "statement": "After catalog.sort the numbers of rows of any two ranks differ by at most one.", "quantifier": "all catalogs", "why_tests_cant": "needs uneven catalogs", "anchors": ["nbodykit/base/catalog.py:CatalogSource.sort"]}
{"id": "C66", "title": "A normalised painted field has mean one whatever the Value column", "statement": "With normalize=True the mean of the painted field is 1 also for catalogs with values.", "quantifier": "all values", "why_tests_cant": "tests paint without values", "anchors": ["nbodykit/source/mesh/catalog.py:CatalogMesh.to_real_field"]}
{"id": "C67", "title": "An empty species does not spoil the shot noise", "statement": "The shot noise of a multi-species mesh is finite when some species has no selected particles.", "quantifier": "all selections", "why_tests_cant": "needs an empty species", "anchors": ["nbodykit/source/mesh/species.py:MultipleSpeciesCatalogMesh.to_real_field"]}
{"id": "C68", "title": "Members of a compensated species mesh compensate once", "statement": "mesh[name] of a compensated MultipleSpeciesCatalogMesh applies the window compensation exactly once.", "quantifier": "all members of compensated species meshes", "why_tests_cant": "the factor shows up only at high wavenumbers", "anchors": ["nbodykit/source/mesh/species.py:MultipleSpeciesCatalogMesh.__getitem__"]}
{"id": "C69", "title": "The state of a binned statistic is restored", "statement": "from_state(__getstate__()) of a binned statistic has equal dimensions, edges, coordinates, variables, attributes and data, and masks exactly the cells with a value that is not finite.", "quantifier": "all binned statistics", "why_tests_cant": "all shapes and values", "anchors": ["nbodykit/binned_statistic.py:BinnedStatistic.from_state", "nbodykit/binned_statistic.py:BinnedStatistic.__getstate__"]}
{"id": "C70", "title": "The state includes the fields to sum", "statement": "A binned statistic restored from its state sums the same fields when rebinned.", "quantifier": "all binned statistics", "why_tests_cant": "the difference appears only on a later reindex", "anchors": ["nbodykit/binned_statistic.py:BinnedStatistic.from_state"]}
{"id": "C71", "title": "Rebinning averages integer variables", "statement": "reindex gives the mean of an integer variable.", "quantifier": "all integer variables", "why_tests_cant": "the loss looks like rounding", "anchors": ["nbodykit/binned_statistic.py:BinnedStatistic.reindex"]}
{"id": "C72", "title": "Rebinning refuses uneven bins", "statement": "reindex with force=False returns only results whose edges are edges of the original.", "quantifier": "all edges", "why_tests_cant": "tests use even bins", "anchors": ["nbodykit/binned_statistic.py:BinnedStatistic.reindex"]}
{"id": "C73", "title": "average covers the whole dimension", "statement": "average(dim) is the mean over all bins of dim also for uneven bins.", "quantifier": "all edges", "why_tests_cant": "tests use even bins", "anchors": ["nbodykit/binned_statistic.py:BinnedStatistic.average"]}
{"id": "C74", "title": "Bins selected by a list keep their edges", "statement": "Every bin of a result of indexing by a list is a bin of the original.", "quantifier": "all lists", "why_tests_cant": "tests look at the data only", "anchors": ["nbodykit/binned_statistic.py:BinnedStatistic.__slice_edges__"]}
{"id": "C75", "title": "Integers and lists can be mixed in an index", "statement": "Indexing by an integer, a slice and a list selects the outer product.", "quantifier": "all keys", "why_tests_cant": "needs three dimensions", "anchors": ["nbodykit/binned_statistic.py:BinnedStatistic.__getitem__"]}
{"id": "C76", "title": "Rebinning one statistic does not affect others", "statement": "A call of reindex without fields_to_sum returns the same whether or not other statistics were rebinned before.", "quantifier": "all histories of calls", "why_tests_cant": "needs two statistics with different fields to sum", "anchors": ["nbodykit/binned_statistic.py:BinnedStatistic.reindex"]}
{"id": "C77", "title": "sel returns bins in the order asked for", "statement": "sel with a list of values returns the bins in the order of the list.", "quantifier": "all lists", "why_tests_cant": "tests use ascending lists", "anchors": ["nbodykit/binned_statistic.py:BinnedStatistic.sel", "nbodykit/binned_statistic.py:BinnedStatistic.take"]}
{"id": "C78", "title": "Slicing keeps given coordinates", "statement": "Slicing keeps the coordinates given to the constructor for the selected bins.", "quantifier": "all coordinates", "why_tests_cant": "tests use default coordinates", "anchors": ["nbodykit/binned_statistic.py:BinnedStatistic.__slice_edges__"]}
{"id": "C79", "title": "Weighted rebinning ignores missing values", "statement": "With weights, values that are not finite do not change the average of the others, as without weights.", "quantifier": "all data and weights", "why_tests_cant": "needs missing values and weights", "anchors": ["nbodykit/binned_statistic.py:bin_ndarray"]}
{"id": "C80", "title": "average works for one dimension", "statement": "average over the only dimension of a statistic returns its mean.", "quantifier": "all one-dimensional statistics", "why_tests_cant": "tests average two-dimensional data", "anchors": ["nbodykit/binned_statistic.py:BinnedStatistic.average"]}
{"id": "C81", "title": "take with a mask keeps the cells where it holds", "statement": "take with a mask that depends on one dimension only keeps the bins of that dimension where it is true.", "quantifier": "all masks", "why_tests_cant": "the documentation example is not run", "anchors": ["nbodykit/binned_statistic.py:BinnedStatistic.take"]}
{"id": "C82", "title": "Concatenation of distributed arrays keeps the global order", "statement": "DistributedArray.concat of several arrays gives an array whose global sequence is the concatenation of theirs, with the requested local sizes or, by default, the sums of the local sizes.", "quantifier": "all arrays, numbers of ranks and local sizes", "why_tests_cant": "positions over arbitrary distributions", "anchors": ["nbodykit/utils.py:DistributedArray.concat"]}
{"id": "C83", "title": "cempty spreads the items evenly", "statement": "The local lengths chosen by DistributedArray.cempty add up to the global length and differ by at most one.", "quantifier": "all lengths and numbers of ranks", "why_tests_cant": "all combinations of length and number of ranks", "anchors": ["nbodykit/utils.py:DistributedArray.cempty"]}
{"id": "C84", "title": "FOF keeps groups with exactly nmin members", "statement": "As documented (halos with fewer particles are ignored), a group with exactly nmin members has a non-zero label.", "quantifier": "all catalogs and nmin", "why_tests_cant": "the boundary case is not tested", "anchors": ["nbodykit/algorithms/fof.py:FOF", "nbodykit/algorithms/fof.py:_assign_labels"]}
{"id": "C85", "title": "FOF works when a rank has no particles", "statement": "FOF.run labels the particles whatever their distribution, also when a rank has none.", "quantifier": "all distributions", "why_tests_cant": "tests have particles on all ranks", "anchors": ["nbodykit/algorithms/fof.py:_assign_labels"]}
{"id": "C86", "title": "Empty distributed arrays can be made", "statement": "DistributedArray accepts local arrays that are empty on all ranks.", "quantifier": "all local arrays", "why_tests_cant": "not tested", "anchors": ["nbodykit/utils.py:DistributedArray"]}
{"id": "C87", "title": "max_label is the largest label", "statement": "After FOF.run, max_label is the maximum label across all ranks.", "quantifier": "all catalogs", "why_tests_cant": "tests do not look at it", "anchors": ["nbodykit/algorithms/fof.py:FOF.run"]}
{"id": "C88", "title": "Length counts the particles of each halo", "statement": "Row h of the halo catalog, for 1 <= h <= the largest label, has as Length the number of particles of all ranks with label h; row 0 has 0.", "quantifier": "all labels, with particles on every rank", "why_tests_cant": "sums over arbitrary distributions", "anchors": ["nbodykit/algorithms/fof.py:fof_catalog", "nbodykit/algorithms/fof.py:count"]}
{"id": "C89", "title": "Centers without a box are means", "statement": "centerofmass without a box size gives, for every label in use, the mean of the values of its particles over all ranks.", "quantifier": "all labels and positions, with particles on every rank", "why_tests_cant": "sums over arbitrary distributions, labels absent from some ranks", "anchors": ["nbodykit/algorithms/fof.py:centerofmass", "nbodykit/algorithms/fof.py:equiv_class"]}
{"id": "C90", "title": "Centers in a box respect the periodic boundary", "statement": "centerofmass with a box size L gives, for a group whose positions can be moved by whole boxes so that they lie within less than L/2 of each other, a number in [0, L) that equals their mean up to whole boxes.", "quantifier": "all labels, box sizes and positions in [0, L]", "why_tests_cant": "all ways a group crosses the boundary", "anchors": ["nbodykit/algorithms/fof.py:centerofmass"]}
{"id": "C91", "title": "Peaks are the densest particles of the group", "statement": "For the peak position the particles of a group that have its largest density over all ranks keep their label and all others get 0.", "quantifier": "all labels and densities, with particles on every rank", "why_tests_cant": "groups spread over ranks, ties", "anchors": ["nbodykit/algorithms/fof.py:fof_catalog"]}
{"id": "C92", "title": "Process grids are in order", "statement": "split_size_3d returns its factors in non-decreasing order, as documented.", "quantifier": "all s >= 1", "why_tests_cant": "tests only look at the product", "anchors": ["nbodykit/utils.py:split_size_3d"]}
{"id": "C93", "title": "Strings that are no axis names are refused", "statement": "A string los other than 'x', 'y' and 'z' is refused.", "quantifier": "all strings", "why_tests_cant": "not tested", "anchors": ["nbodykit/algorithms/pair_counters/simbox.py:SimulationBoxPairCount.__init__"]}
{"id": "C94", "title": "Positions on the boundary are accepted", "statement": "shift_to_box_center accepts positions bounded by [0, L], as documented.", "quantifier": "all positions and box sizes", "why_tests_cant": "random positions never hit the boundary", "anchors": ["nbodykit/algorithms/pair_counters/simbox.py:shift_to_box_center"]}
{"id": "C95", "title": "Positions around the center are unchanged", "statement": "shift_to_box_center leaves positions in (-L/2, L/2) unchanged.", "quantifier": "all positions and box sizes", "why_tests_cant": "tests use full boxes", "anchors": ["nbodykit/algorithms/pair_counters/simbox.py:shift_to_box_center"]}
{"id": "C96", "title": "The pair normalisation counts pairs of objects", "statement": "total_wnpairs of an auto-correlation is the sum over unordered pairs of the product of their weights, of a cross-correlation half the sum over all pairs; an auto-correlation with a symmetric bin that excludes an object with itself sums every unordered pair twice.", "quantifier": "all weights and distributions over ranks", "why_tests_cant": "identities over all weights", "anchors": ["nbodykit/algorithms/pair_counters/base.py:PairCountBase.__init__"]}
{"id": "C97", "title": "The Landy-Szalay estimate does not depend on the scale of the weights", "statement": "Multiplying all data weights by a and all random weights by b leaves the auto-correlation estimate of every bin unchanged; it is zero when data, cross and random pairs have the same fraction of their total in the bin, and nan without random pairs.", "quantifier": "all catalogs and factors different from zero", "why_tests_cant": "identities over all catalogs", "anchors": ["nbodykit/algorithms/paircount_tpcf/estimators.py:LandySzalayEstimator"]}
{"id": "C98", "title": "The natural estimate of one sample is unbiased", "statement": "For the mean counts of one unclustered sample of N objects the natural estimate is zero.", "quantifier": "all N and bins", "why_tests_cant": "tests compare with tolerance", "anchors": ["nbodykit/algorithms/paircount_tpcf/estimators.py:NaturalEstimator"]}
{"id": "C99", "title": "Angular filling factors are those of spherical caps", "statement": "In angular mode the filling factor of a bin is the fraction of the sphere between its edges.", "quantifier": "all edges up to 90 degrees", "why_tests_cant": "tests use small angles", "anchors": ["nbodykit/algorithms/paircount_tpcf/estimators.py:AnalyticUniformRandoms.get_filling_factor"]}
{"id": "C100", "title": "Every alias can be cloned", "statement": "clone(name=value) changes the parameter for every name the constructor accepts.", "quantifier": "all names", "why_tests_cant": "silent: the old value is kept", "anchors": ["nbodykit/cosmology/cosmology.py:Cosmology.clone", "nbodykit/cosmology/cosmology.py:CONFLICTS"]}
{"id": "C101", "title": "Cloning with other neutrino masses updates N_ur", "statement": "The clone of a default cosmology with m_ncdm=l has the N_ur of a new cosmology with m_ncdm=l.", "quantifier": "all mass lists", "why_tests_cant": "silent change of Neff", "anchors": ["nbodykit/cosmology/cosmology.py:Cosmology.clone", "nbodykit/cosmology/cosmology.py:compile_args"]}
{"id": "C102", "title": "Massless species by density", "statement": "A cosmology with massive neutrinos can be cloned with Omega_ur, omega_ur or Omega0_ur.", "quantifier": "all values", "why_tests_cant": "only this combination fails", "anchors": ["nbodykit/cosmology/cosmology.py:Cosmology.clone", "nbodykit/cosmology/cosmology.py:compile_args"]}
{"id": "C103", "title": "The constructor uses its arguments", "statement": "A value given to Cosmology() under any accepted name, without another name of the same quantity, is what CLASS receives; quantities that are not mentioned have the documented defaults; with a list of masses of neutrinos (none, one number or a list, by default one of 0.06 eV) CLASS receives their number and masses and, unless N_ur is given, 3.046, 2.0328, 1.0196 or 0.00641 massless ones for none to three; masses of zero, and more than three without N_ur, are refused.", "quantifier": "all arguments and aliases", "why_tests_cant": "the alias table interacts with the defaults", "anchors": ["nbodykit/cosmology/cosmology.py:Cosmology.__init__", "nbodykit/cosmology/cosmology.py:compile_args"]}
{"id": "C104", "title": "All contradictions are refused", "statement": "Two different names of the same quantity given to Cosmology() are refused.", "quantifier": "all pairs of names", "why_tests_cant": "needs every pair", "anchors": ["nbodykit/cosmology/cosmology.py:check_args", "nbodykit/cosmology/cosmology.py:CONFLICTS"]}
{"id": "C105", "title": "The constructor specifies every quantity once", "statement": "For arguments without contradiction the parameters handed to CLASS name every quantity at most once.", "quantifier": "all arguments", "why_tests_cant": "needs every name", "anchors": ["nbodykit/cosmology/cosmology.py:Cosmology.__init__"]}
{"id": "C106", "title": "match reaches its target", "statement": "match(Omega0_cb=x) and match(Omega0_m=x) set baryons and cold dark matter to the wanted total with their ratio kept, match(sigma8=s) scales A_s by (s/sigma8)^2, and all other parameters are unchanged.", "quantifier": "all targets and cosmologies with non-zero total and sigma8", "why_tests_cant": "identities over all values", "anchors": ["nbodykit/cosmology/cosmology.py:Cosmology.match"]}
{"id": "C107", "title": "w0 survives to_astropy for every equation of state", "statement": "to_astropy() keeps w0.", "quantifier": "all (w0, wa)", "why_tests_cant": "only w0=-1 with wa different from 0 fails", "anchors": ["nbodykit/cosmology/cosmology.py:Cosmology.to_astropy"]}
{"id": "C108", "title": "from_astropy(to_astropy()) starts from the same parameters", "statement": "astropy_to_dict(c.to_astropy()) holds h, T0_cmb, Omega0_b, Omega0_cdm, the neutrino masses (in some order) and, outside C107, the dark energy parameters of c.", "quantifier": "all cosmologies with positive masses, not more than Neff of them", "why_tests_cant": "all branch combinations", "anchors": ["nbodykit/cosmology/cosmology.py:Cosmology.to_astropy", "nbodykit/cosmology/cosmology.py:astropy_to_dict"]}
{"id": "C109", "title": "clone() is the identity after any clone", "statement": "clone() returns equal parameters for every cosmology that clone can produce.", "quantifier": "all arguments", "why_tests_cant": "needs output=None", "anchors": ["nbodykit/cosmology/cosmology.py:Cosmology.clone", "nbodykit/cosmology/cosmology.py:compile_args"]}
{"id": "C110", "title": "Every listed column can be read", "statement": "Every name in columns of a multi-species catalog can be read.", "quantifier": "all column names", "why_tests_cant": "names with a slash come from HDF groups only", "anchors": ["nbodykit/source/catalog/species.py:MultipleSpeciesCatalog.columns", "nbodykit/source/catalog/species.py:split_column"]}
{"id": "C111", "title": "Metadata of species must agree", "statement": "check_species_metadata returns a value exactly when at least one is given, for the whole catalog or for a species, and all given ones are equal to it; otherwise ValueError.", "quantifier": "all attribute dictionaries", "why_tests_cant": "all dictionaries", "anchors": ["nbodykit/source/catalog/species.py:check_species_metadata"]}
{"id": "C112", "title": "Galaxy type codes match for every order of types", "statement": "attrs['gal_types'][t] is the integer stored for galaxies of type t for every list of types.", "quantifier": "all lists of distinct types", "why_tests_cant": "tests have two types", "anchors": ["nbodykit/source/catalog/halos.py:_enum_gal_types"]}
{"id": "C113", "title": "Excluding a data set keeps data sets with longer names", "statement": "exclude=['Pos'] keeps 'Position'.", "quantifier": "all names", "why_tests_cant": "name coincidences", "anchors": ["nbodykit/io/hdf.py:HDFFile.__init__"]}
{"id": "C114", "title": "The header is excluded under any of its names", "statement": "The group given as header is not among the columns.", "quantifier": "all names", "why_tests_cant": "tests use the relative name", "anchors": ["nbodykit/io/hdf.py:HDFFile.__init__"]}
{"id": "C115", "title": "The rightmost edge belongs to the last bin", "statement": "An object with the redshift of the last edge is counted; with automatic bins all objects are counted.", "quantifier": "all redshifts and edges", "why_tests_cant": "boundary values", "anchors": ["nbodykit/algorithms/zhist.py:RedshiftHistogram.run"]}
{"id": "C116", "title": "Integer bin numbers are accepted", "statement": "RedshiftHistogram(bins=n) sets up n bins.", "quantifier": "all n", "why_tests_cant": "not tested", "anchors": ["nbodykit/algorithms/zhist.py:RedshiftHistogram.__init__"]}
{"id": "C117", "title": "Empty ranks are accepted", "statement": "The automatic bins are computed for every distribution of at least one object.", "quantifier": "all distributions", "why_tests_cant": "needs an empty rank", "anchors": ["nbodykit/algorithms/zhist.py:RedshiftHistogram.__init__", "nbodykit/algorithms/zhist.py:scotts_bin_width"]}
{"id": "C118", "title": "The numbers of the survey estimate are the documented sums", "statement": "After a successful first run alpha, data.norm, randoms.norm and shotnoise are the documented sums over the selected objects of all ranks, and the multipoles use the norm of the randoms.", "quantifier": "all catalogs, weights and distributions", "why_tests_cant": "identities over all weights", "anchors": ["nbodykit/algorithms/convpower/fkp.py:ConvolvedFFTPower.normalization", "nbodykit/algorithms/convpower/fkp.py:ConvolvedFFTPower.shotnoise", "nbodykit/algorithms/convpower/catalogmesh.py:FKPCatalogMesh.weighted_total"]}
{"id": "C119", "title": "The survey field integrates to the weight difference", "statement": "The FKP field sums to (sum of data weights - alpha * sum of random weights)/cell volume, which is zero for equal FKP weights.", "quantifier": "all catalogs, mass-conserving painting", "why_tests_cant": "identities over all weights", "anchors": ["nbodykit/algorithms/convpower/catalogmesh.py:FKPCatalogMesh.to_real_field"]}
{"id": "C120", "title": "A line of sight of any length is normalised", "statement": "FFTRecon turns the los vector into a unit vector.", "quantifier": "all non-zero vectors", "why_tests_cant": "tests use unit vectors", "anchors": ["nbodykit/algorithms/fftrecon.py:FFTRecon.__init__"]}
{"id": "C121", "title": "Redshift distortions are removed along any line of sight", "statement": "With revert_rsd the displacement s becomes s + f (s.n) n for the unit line of sight n.", "quantifier": "all unit vectors", "why_tests_cant": "tests use the z axis", "anchors": ["nbodykit/algorithms/fftrecon.py:FFTRecon._compute_s"]}
{"id": "C122", "title": "Particles stay in anisotropic cells", "statement": "Particles drawn from a mesh with different cell sizes per axis lie in the cell they were drawn for.", "quantifier": "all cell sizes", "why_tests_cant": "tests use cubes", "anchors": ["nbodykit/mockmaker.py:poisson_sample_to_points"]}
{"id": "C123", "title": "The survey box holds data and randoms", "statement": "All objects of data and randoms lie in the box.", "quantifier": "all catalogs", "why_tests_cant": "tests use data within the randoms", "anchors": ["nbodykit/algorithms/convpower/catalog.py:FKPCatalog.to_mesh"]}
{"id": "C124", "title": "The joint box of two survey meshes holds both", "statement": "The box used for two meshes holds what either of their boxes holds.", "quantifier": "all boxes", "why_tests_cant": "tests use equal boxes", "anchors": ["nbodykit/algorithms/convpower/fkp.py:ConvolvedFFTPower.__init__"]}
{"id": "C125", "title": "An empty list of multipoles is accepted", "statement": "ConvolvedFFTPower with poles=[] returns an empty result.", "quantifier": "all catalogs", "why_tests_cant": "degenerate argument", "anchors": ["nbodykit/algorithms/convpower/fkp.py:ConvolvedFFTPower._compute_multipoles"]}
{"id": "C126", "title": "The last line may begin anywhere", "statement": "The size of a CSVFile ending in a newline is the number of its lines.", "quantifier": "all files without blank lines and all block sizes", "why_tests_cant": "needs a line across the last block boundary", "anchors": ["nbodykit/io/csv.py:make_partitions"]}
{"id": "C127", "title": "An unterminated last line is read", "statement": "Reading size rows of a CSVFile returns size rows.", "quantifier": "all files without blank lines and all block sizes", "why_tests_cant": "needs a line across the last block boundary", "anchors": ["nbodykit/io/csv.py:make_partitions", "nbodykit/io/csv.py:CSVFile.read"]}
{"id": "C128", "title": "nrows bounds the size", "statement": "With nrows the size is at most nrows and as many rows are read.", "quantifier": "all files, block sizes and nrows", "why_tests_cant": "needs the limit at a block boundary", "anchors": ["nbodykit/io/csv.py:make_partitions"]}
{"id": "C129", "title": "Skipping all rows gives an empty file", "statement": "With skiprows at least the number of lines the size is 0.", "quantifier": "all skiprows", "why_tests_cant": "degenerate argument", "anchors": ["nbodykit/io/csv.py:make_partitions"]}
{"id": "C130", "title": "Blank lines are not counted", "statement": "With skip_blank_lines the size is the number of lines that are not blank.", "quantifier": "all files and block sizes", "why_tests_cant": "two blank lines in a row, white space, or a blank line first in a block", "anchors": ["nbodykit/io/csv.py:make_partitions"]}
{"id": "C131", "title": "Empty arrays keep their shape", "statement": "An array without elements is restored with its shape.", "quantifier": "all shapes", "why_tests_cant": "degenerate arrays", "anchors": ["nbodykit/utils.py:JSONDecoder.hook"]}
{"id": "C132", "title": "Dictionaries with any keys are restored", "statement": "A dictionary with string keys is restored as saved.", "quantifier": "all string keys", "why_tests_cant": "needs keys such as '__dtype__'", "anchors": ["nbodykit/utils.py:JSONDecoder.hook"]}
{"id": "C133", "title": "Tuples and integer keys are restored", "statement": "Tuples and dictionaries with integer keys are restored as saved.", "quantifier": "all values", "why_tests_cant": "tests compare arrays and floats", "anchors": ["nbodykit/utils.py:JSONEncoder", "nbodykit/utils.py:JSONDecoder"]}
{"id": "C134", "title": "Quantities keep their type", "statement": "A quantity is restored with its numpy type.", "quantifier": "all quantities", "why_tests_cant": "tests use float64", "anchors": ["nbodykit/utils.py:JSONEncoder.default", "nbodykit/utils.py:JSONDecoder.hook"]}
{"id": "C135", "title": "All complex numbers are restored", "statement": "Every complex number is restored as saved.", "quantifier": "all complex numbers", "why_tests_cant": "tests use finite numbers", "anchors": ["nbodykit/utils.py:JSONDecoder.hook"]}
{"id": "C136", "title": "Every numpy scalar can be saved", "statement": "numpy booleans and complex64 numbers are encoded.", "quantifier": "all numpy scalars", "why_tests_cant": "tests use floats and integers", "anchors": ["nbodykit/utils.py:JSONEncoder.default"]}
{"id": "C137", "title": "Collided objects have an assigned neighbour within the radius", "statement": "Every collided object has an object that keeps its fiber within the collision radius, i.e. no fiber is given up without need.", "quantifier": "all collision graphs and random choices", "why_tests_cant": "needs a particular group of six objects and tie-breaking", "anchors": ["nbodykit/algorithms/fibercollisions.py:FiberCollisions._assign_multiplets"]}
{"id": "C138", "title": "The assignment does not depend on the number of ranks", "statement": "The same seed gives the same fibers on every number of ranks.", "quantifier": "all numbers of ranks", "why_tests_cant": "needs several groups and ranks", "anchors": ["nbodykit/algorithms/fibercollisions.py:FiberCollisions.run", "nbodykit/algorithms/fibercollisions.py:FiberCollisions._assign_fibers"]}
{"id": "C139", "title": "The domain grid spans the positions", "statement": "The grid of domains covers the positions along every axis.", "quantifier": "all positions", "why_tests_cant": "needs different extents per axis", "anchors": ["nbodykit/algorithms/cgm.py:CylindricalGroups.run"]}
{"id": "C140", "title": "Ranks without objects are accepted", "statement": "Groups are found for every distribution of at least one object.", "quantifier": "all distributions", "why_tests_cant": "needs an empty rank", "anchors": ["nbodykit/algorithms/cgm.py:CylindricalGroups.run"]}
{"id": "C141", "title": "Every central has a number", "statement": "The group number of a central is not negative.", "quantifier": "all positions", "why_tests_cant": "needs an object exactly at the observer", "anchors": ["nbodykit/algorithms/cgm.py:cgm"]}
{"id": "C142", "title": "Being in each other's cylinder is symmetric", "statement": "If one object is in the cylinder of another, the other is in its cylinder.", "quantifier": "all pairs (proved without periodic boundaries; false at separations of half the box)", "why_tests_cant": "needs a separation of exactly half the box", "anchors": ["nbodykit/algorithms/cgm.py:cgm"]}
{"id": "C143", "title": "Wedges hold the modes by their own mu", "statement": "A (k, mu) bin of FFTPower counts the modes of the box whose mu is in the bin.", "quantifier": "all meshes, Nmu", "why_tests_cant": "the opposite of a stored mode is put into the bin of the stored one; totals over mu are right", "anchors": ["nbodykit/algorithms/fftpower.py:project_to_basis"]}
{"id": "C144", "title": "The correlation function averages all separations", "statement": "FFTCorr in 1d mode averages over all separations with lower edge <= r < upper edge.", "quantifier": "all meshes and symmetric correlation fields", "why_tests_cant": "separations with negative mu are dropped, those with mu = 0 are not, a bias falling with the mesh size", "anchors": ["nbodykit/algorithms/fftcorr.py:FFTCorr.run"]}
{"id": "C145", "title": "The correlation function averages the separations with positive mu", "statement": "FFTCorr averages in every (r, mu) bin exactly the separations with lower edge <= r < upper edge and mu in the bin (the last mu bin including mu = 1), for the multipoles those with mu >= 0: modes is their number, r, mu, corr and corr_ell the averages of r, mu, the correlation field and (2 ell + 1) L_ell(mu) times the field.", "quantifier": "all meshes, increasing non-negative edges, Nmu, poles, correlation fields, decompositions", "why_tests_cant": "all mesh sizes and edges", "anchors": ["nbodykit/algorithms/fftcorr.py:FFTCorr.run", "nbodykit/algorithms/fftpower.py:project_to_basis"]}
{"id": "C146", "title": "Accepted lines of sight keep all modes", "statement": "With any line of sight that FFTPower accepts as a unit vector the 1d spectrum averages all modes of every shell.", "quantifier": "all lines of sight within the tolerance", "why_tests_cant": "needs a line of sight slightly longer than 1 and modes exactly against it", "anchors": ["nbodykit/algorithms/fftpower.py:FFTPower.__init__", "nbodykit/algorithms/fftpower.py:project_to_basis"]}
{"id": "C147", "title": "Odd multipoles average all modes", "statement": "The power of an odd multipole is the average of (2 ell + 1) L_ell(mu) P over all modes of the shell, also with Nyquist modes in it.", "quantifier": "all shells", "why_tests_cant": "needs an odd multipole and Nyquist modes along the line of sight", "anchors": ["nbodykit/algorithms/fftpower.py:project_to_basis"]}
{"id": "C148", "title": "Projected modes for odd meshes", "statement": "The modes of the projected power are the number of modes of the projected mesh in the bin also when the last axis is odd.", "quantifier": "all mesh shapes", "why_tests_cant": "tests use even meshes", "anchors": ["nbodykit/algorithms/fftpower.py:ProjectedFFTPower.run"]}
{"id": "C149", "title": "Projected cross power is the average over the modes", "statement": "The projected power of two fields is the average of the full (real and imaginary) power over the modes in the bin.", "quantifier": "all fields", "why_tests_cant": "needs a cross power with imaginary part", "anchors": ["nbodykit/algorithms/fftpower.py:ProjectedFFTPower.run"]}
{"id": "C150", "title": "Small catalogs are accepted", "statement": "The three-point function can be computed for every catalog with at least one object.", "quantifier": "all catalogs (proved: fewer than ten objects on the fullest rank always raise ZeroDivisionError)", "why_tests_cant": "tests use large catalogs", "anchors": ["nbodykit/algorithms/threeptcf.py:Base3PCF._run"]}
{"id": "C151", "title": "Triplets consist of three distinct objects", "statement": "The multipoles sum over triplets of distinct objects only.", "quantifier": "all catalogs", "why_tests_cant": "on the diagonal (r1 and r2 in one bin) an object is paired with itself; small for many objects per bin", "anchors": ["nbodykit/algorithms/threeptcf.py:Base3PCF._run"]}
{"id": "C152", "title": "The real spherical harmonics satisfy the addition theorem", "statement": "For every degree l and unit vectors a, b: 4 pi times the sum over m = -l..l of get_real_Ylm(l, m)(a) get_real_Ylm(l, m)(b) equals (2 l + 1) P_l(a . b); in particular the squares at one direction sum to (2 l + 1)/(4 pi).", "quantifier": "all degrees and unit vectors, including the poles of the sphere", "why_tests_cant": "tests compare a few (l, m) with scipy at random points", "anchors": ["nbodykit/algorithms/convpower/fkp.py:get_real_Ylm"]}
{"id": "C153", "title": "The harmonics of the three-point function satisfy the addition theorem", "statement": "The sum over m = -l..l of Y_lm(a) conj(Y_lm(b)) with the Y_lm of YlmCache (m >= 0 given, m < 0 by conjugation) is (2 l + 1)/(4 pi) P_l(a . b) for every l, so with these harmonics the multipoles of the three-point function are the triplet sums of C32 at every multipole.", "quantifier": "all degrees, unit vectors, catalogs and decompositions as in C32", "why_tests_cant": "tests compare with stored results", "anchors": ["nbodykit/algorithms/threeptcf.py:YlmCache._get_Ylm", "nbodykit/algorithms/threeptcf.py:Base3PCF._run"]}
{"id": "C154", "title": "The multipoles of ConvolvedFFTPower are averages over the modes of the shell", "statement": "Every multipole power_l(b) is the mean over the modes k with lower edge <= |k| < upper edge of norm A0(k) conj(A_l(k)), where A0 is the transform of the first density field and A_l(k) the transform of (2 l + 1) P_l(k.x) F2(x) with x the position from the observer; modes is their number and k the mean of |k|; with compressed (real) meshes the modes that are not stored are included.", "quantifier": "all grids, fields, interpolation corrections, normalizations, non-empty sets of distinct multipoles in any order, sorted non-negative edges, no cell at the observer; bins without the zero mode or the monopole; even multipoles for compressed meshes (the rest: C155, C156)", "why_tests_cant": "tests compare with stored results", "anchors": ["nbodykit/algorithms/convpower/fkp.py:ConvolvedFFTPower._compute_multipoles"]}
{"id": "C155", "title": "Odd multipoles of real meshes are averages over all modes", "statement": "With real (compressed) meshes an odd multipole is the mean over all modes of the shell, including the ones not stored.", "quantifier": "all real meshes and odd multipoles", "why_tests_cant": "default meshes are complex", "anchors": ["nbodykit/algorithms/convpower/fkp.py:ConvolvedFFTPower._compute_multipoles"]}
{"id": "C156", "title": "The zero mode has no part in the higher multipoles", "statement": "A bin that holds only the zero mode, which has no direction, has no power in the multipoles above the monopole.", "quantifier": "all fields", "why_tests_cant": "the zero mode is cut by kmin > 0", "anchors": ["nbodykit/algorithms/convpower/fkp.py:ConvolvedFFTPower._compute_multipoles"]}
{"id": "C157", "title": "Negative multipoles are refused", "statement": "Asking ConvolvedFFTPower for a negative multipole raises an exception.", "quantifier": "all lists of multipoles", "why_tests_cant": "tests ask for valid multipoles", "anchors": ["nbodykit/algorithms/convpower/fkp.py:ConvolvedFFTPower._compute_multipoles"]}
{"id": "C158", "title": "to_pkmu gives the means of the multipole series over the wedges", "statement": "The wedge (i, j) of to_pkmu is the mean over mu between edges j and j+1 of the sum over even l <= max_ell of power_l(i) P_l(mu); wedges that cover [0, 1] or [-1, 1], weighted by width, add up to the monopole (times the range); a missing even multipole raises ValueError.", "quantifier": "all multipoles, numbers of k bins, mu edges (consecutive ones distinct), max_ell", "why_tests_cant": "tests use one set of wedges and compare with stored results", "anchors": ["nbodykit/algorithms/convpower/fkp.py:ConvolvedFFTPower.to_pkmu"]}
{"id": "C159", "title": "Sky and Cartesian coordinates agree", "statement": "CartesianToEquatorial gives for every position a right ascension in [0, 360) and declination in [-90, 90] such that the position lies at its distance from the observer in that direction (for every position, also along the axes); SkyToCartesian puts row i at the comoving distance of redshift i from the observer in the direction ra i, dec i, spreading scalars over the rows, in degrees or radians; arrays of different sizes raise ValueError.", "quantifier": "all positions, observers, angles, distance functions, sizes; frame icrs; no rounding", "why_tests_cant": "tests convert random positions back and forth with one observer", "anchors": ["nbodykit/transform.py:CartesianToEquatorial", "nbodykit/transform.py:SkyToUnitSphere", "nbodykit/transform.py:SkyToCartesian"]}
{"id": "C160", "title": "CartesianToSky inverts SkyToCartesian within the redshift table", "statement": "CartesianToSky returns the equatorial coordinates of every position and its redshift: exact at the 1025 tabulated redshifts, within a factor (zmax / 1e-8)^(1/1023) elsewhere above 1e-8 and in [0, 1e-8] below; a velocity multiplies 1 + z by 1 + v_r / c with v_r its component away from the observer; positions beyond zmax raise ValueError. SkyToCartesian followed by CartesianToSky gives back ra, dec exactly and the redshift within these bounds.", "quantifier": "all positions, observers, velocities, strictly increasing distance functions, zmax > 1e-8; with velocities no object at the observer", "why_tests_cant": "tests use one cosmology and loose tolerances", "anchors": ["nbodykit/transform.py:CartesianToSky", "nbodykit/transform.py:SkyToCartesian"]}
{"id": "C161", "title": "VectorProjection is the orthogonal projection", "statement": "Every projected vector is parallel to the direction and the rest is orthogonal to it; neither length nor sign of the direction matters; projecting twice is projecting once.", "quantifier": "all arrays of vectors of any dimension and non-zero directions", "why_tests_cant": "tests use axes of the box", "anchors": ["nbodykit/transform.py:VectorProjection"]}
{"id": "C162", "title": "VectorProjection keeps the shape of its input", "statement": "The projection of vectors of shape (..., D) has the same shape.", "quantifier": "all shapes (proved for (N, D))", "why_tests_cant": "tests use (N, 3)", "anchors": ["nbodykit/transform.py:VectorProjection"]}
{"id": "C163", "title": "StackColumns puts column j into column j", "statement": "Row i of StackColumns holds the element i of every column in order, with scalars spread over the rows; arrays of different sizes raise ValueError.", "quantifier": "all numbers and lengths of one-dimensional columns", "why_tests_cant": "all sizes, mixes of scalars and arrays", "anchors": ["nbodykit/transform.py:StackColumns"]}
{"id": "C164", "title": "Concatenated catalogs hold the rows of all sources", "statement": "On every rank ConcatenateSources holds the rows of the sources one after the other, every row with its values in all columns asked for (all of the first source if none); sizes add up; all ranks together hold every row of every source exactly once; attributes are those of the first source; a column missing from one source raises ValueError.", "quantifier": "all numbers of sources, sizes (also empty), column lists with repetitions, distributions", "why_tests_cant": "tests use two sources on few ranks", "anchors": ["nbodykit/transform.py:ConcatenateSources"]}
{"id": "C165", "title": "Columns of concatenated catalogs can have any name", "statement": "Catalogs can be concatenated whatever their columns are called.", "quantifier": "all column names", "why_tests_cant": "needs a column called size, comm or cls", "anchors": ["nbodykit/transform.py:ConcatenateSources", "nbodykit/base/catalog.py:CatalogSource._from_columns"]}
{"id": "C166", "title": "KDDensity is the inverse cube of the distance to the eighth particle", "statement": "The density of a particle is one over the cube of its periodic distance to the eighth nearest particle counting itself: on one rank always, on any ranks if that distance is at most margin times attrs['meansep']; otherwise it is at most that value.", "quantifier": "all positions (eighth distance not zero), cubic boxes, margins, distributions over ranks that give every rank the particles within the margin of its domain", "why_tests_cant": "tests only run the code", "anchors": ["nbodykit/algorithms/kdtree.py:KDDensity.run"]}
{"id": "C167", "title": "KDDensity uses the nearest neighbour", "statement": "The density is the inverse cube of the distance to the nearest neighbour.", "quantifier": "all catalogs", "why_tests_cant": "tests do not look at the values", "anchors": ["nbodykit/algorithms/kdtree.py:KDDensity.run"]}
{"id": "C168", "title": "KDDensity does not depend on the number of ranks", "statement": "With the default margin, the density of a particle is the same for any number of ranks.", "quantifier": "all catalogs of eight or more particles", "why_tests_cant": "tests do not look at the values", "anchors": ["nbodykit/algorithms/kdtree.py:KDDensity.run"]}
{"id": "C169", "title": "The margin of KDDensity is relative to the mean separation", "statement": "The padding of the domains is margin times the mean separation (V / N)^(1/3).", "quantifier": "all boxes and numbers of particles", "why_tests_cant": "the padding is internal", "anchors": ["nbodykit/algorithms/kdtree.py:KDDensity.__init__"]}
{"id": "C170", "title": "A saved catalog is read back row by row", "statement": "save() of any columns followed by BigFileCatalog gives the same columns with the same rows in the same global order, for any number of ranks writing and reading, any chunks and any order in which the chunks are written; default columns and columns not asked for are not in the file.", "quantifier": "all catalogs with distinct column names other than Header, header and '.', all distributions, chunkings and schedules", "why_tests_cant": "chunk writes interleave freely over ranks", "anchors": ["nbodykit/base/catalog.py:CatalogSourceBase.save", "nbodykit/io/bigfile.py:BigFile.__init__", "nbodykit/source/catalog/file.py:FileCatalogBase.__init__"]}
{"id": "C171", "title": "Columns of any name are read back", "statement": "Every saved column can be read back with the default arguments.", "quantifier": "all column names", "why_tests_cant": "needs a column called header", "anchors": ["nbodykit/base/catalog.py:CatalogSourceBase.save", "nbodykit/io/bigfile.py:BigFile._find_headers"]}
{"id": "C172", "title": "Attributes of columns are saved", "statement": "Attributes set on a column (cat['Mass'].attrs) are stored with its data set, as documented.", "quantifier": "all columns and attributes", "why_tests_cant": "tests do not set column attributes", "anchors": ["nbodykit/base/catalog.py:CatalogSourceBase.save", "nbodykit/base/catalog.py:ColumnAccessor.__new__", "nbodykit/base/catalog.py:CatalogSourceBase.__getitem__"]}
{"id": "C173", "title": "Attributes of a saved catalog are restored", "statement": "Strings not beginning with json://, arrays, numbers (as arrays of length one) and all values with a JSON form come back from save() and BigFileCatalog.", "quantifier": "all such attributes", "why_tests_cant": "all kinds of values", "anchors": ["nbodykit/base/catalog.py:CatalogSourceBase.save", "nbodykit/io/bigfile.py:BigFile.__init__"]}
{"id": "C174", "title": "String attributes of a saved catalog are restored", "statement": "Every string attribute comes back as the same string.", "quantifier": "all strings", "why_tests_cant": "needs strings beginning with json://", "anchors": ["nbodykit/io/bigfile.py:BigFile.__init__"]}
{"id": "C175", "title": "ArrayCatalog accepts arrays distributed in any way", "statement": "If all ranks give the same columns and types and equal lengths on each rank (also zero), every rank gets a catalog with the local length.", "quantifier": "all numbers of ranks, columns, lengths", "why_tests_cant": "needs many ranks", "anchors": ["nbodykit/source/catalog/array.py:ArrayCatalog.__init__"]}
{"id": "C176", "title": "ArrayCatalog refuses mismatched types on all ranks", "statement": "If the types differ between ranks every rank gets ValueError.", "quantifier": "all types and numbers of ranks", "why_tests_cant": "needs several ranks with different types", "anchors": ["nbodykit/source/catalog/array.py:ArrayCatalog.__init__"]}
{"id": "C177", "title": "Subvolumes keep rows together", "statement": "Every row of the source is on exactly one rank of SubVolumesCatalog, with its values in all columns, namely the rank whose subvolume holds its position; size is the number of rows; the columns are those asked for.", "quantifier": "all catalogs, distributions and domains that give every position to one rank", "why_tests_cant": "needs several ranks and columns", "anchors": ["nbodykit/source/catalog/subvolumes.py:SubVolumesCatalog.__init__"]}
{"id": "C178", "title": "Gaussian fields have the linear power spectrum", "statement": "For every mode but the mean, the volume times the squared modulus of the overdensity of gaussian_complex_fields is the linear power at the wave number of the mode times the squared modulus of the white noise (so exactly the power with unitary amplitudes); the mean is zero.", "quantifier": "all meshes, boxes with unequal sides, power spectra, white noise, seeds", "why_tests_cant": "tests average a few bins of one seed", "anchors": ["nbodykit/mockmaker.py:gaussian_complex_fields"]}
{"id": "C179", "title": "The displacement is the Zel'dovich displacement of the overdensity", "statement": "In Fourier space the divergence of the displacement is minus the overdensity, its curl is zero and its mean is zero, for every mode.", "quantifier": "all meshes, boxes, power spectra, white noise", "why_tests_cant": "tests check the variance of one seed", "anchors": ["nbodykit/mockmaker.py:gaussian_complex_fields"]}
{"id": "C180", "title": "Gaussian fields are real, and change sign with the phase", "statement": "The overdensity is the transform of a real field; so is the displacement away from the Nyquist frequency; inverted_phase changes the sign of overdensity and displacement in every mode.", "quantifier": "all meshes, boxes, power spectra, white noise of a real field", "why_tests_cant": "all modes, odd and even meshes", "anchors": ["nbodykit/mockmaker.py:gaussian_complex_fields"]}
{"id": "C181", "title": "The displacement field has minus the overdensity as divergence in every mode", "statement": "The displacement of gaussian_complex_fields is the transform of a real field for all modes, so that a field with fluctuations has displacements.", "quantifier": "all meshes, power spectra, white noise", "why_tests_cant": "needs power at the Nyquist frequency alone", "anchors": ["nbodykit/mockmaker.py:gaussian_complex_fields", "nbodykit/mockmaker.py:gaussian_real_fields"]}
{"id": "C182", "title": "LinearMesh has mean one", "statement": "The field of LinearMesh in real space is one plus the Gaussian overdensity in every cell and its mean over the mesh is exactly one; a seed that is not an integer raises ValueError.", "quantifier": "all meshes, boxes, power spectra, white noise", "why_tests_cant": "tests use one mesh and tolerances", "anchors": ["nbodykit/source/mesh/linear.py:LinearMesh.to_complex_field"]}
{"id": "C183", "title": "The lognormal transform is positive, of mean one, and independent of ranks", "statement": "lognormal_transform keeps the shape, gives positive values of mean one, the ratio of two cells being exp(bias times the difference of their densities); the values depend on the density only, not on its distribution over ranks; the expected number of objects of poisson_sample_to_points is nbar times the volume of all cells for every density and bias.", "quantifier": "all densities, biases, distributions over ranks (also empty ones)", "why_tests_cant": "tests use one realisation", "anchors": ["nbodykit/mockmaker.py:lognormal_transform", "nbodykit/mockmaker.py:poisson_sample_to_points"]}
{"id": "C184", "title": "Particles of LogNormalCatalog lie in the box", "statement": "Positions are in [0, BoxSize), equal to the sampled position plus the displacement up to periods; VelocityOffset is Velocity (1 + z) / (100 E(z)), the shift in redshift space.", "quantifier": "all positions, displacements, redshifts, growth rates", "why_tests_cant": "tests look at one catalog", "anchors": ["nbodykit/source/catalog/lognormal.py:LogNormalCatalog._makesource"]}
{"id": "C185", "title": "Filters keep the mean and reality of a field and damp all modes", "statement": "TopHat(r) and Gaussian(r) multiply the mean mode by one, every mode by a factor of at most one in size that is one up to k^2 r^2 / 10 and k^2 r^2 / 2, and keep the transform of a real field one; Gaussian(r1) followed by Gaussian(r2) is Gaussian(sqrt(r1^2 + r2^2)).", "quantifier": "all wave vectors, radii r not zero, fields, meshes", "why_tests_cant": "tests only run the filters", "anchors": ["nbodykit/filters.py:TopHat.filter", "nbodykit/filters.py:Gaussian.filter"]}
{"id": "C186", "title": "A filter of radius zero leaves the field alone", "statement": "TopHat(0) multiplies every mode by one as Gaussian(0) does.", "quantifier": "all wave vectors", "why_tests_cant": "radius zero is not tested", "anchors": ["nbodykit/filters.py:TopHat.filter"]}
{"id": "C187", "title": "Survey pair counts are the sums over all pairs on any number of ranks", "statement": "For every bin SurveyDataPairCount gives the number of pairs, the sum of their separations and the sum of products of weights over all pairs of objects of the two catalogs (or of the one with itself) in that bin, each ordered pair counted once, in all modes and on any number of ranks; missing or inconsistent arguments (edges not positive, Nmu or pimax missing or given in the wrong mode, pimax below one, no cosmology) raise ValueError.", "quantifier": "all catalogs not lying in a coordinate plane, numbers of ranks, decompositions that give every rank the objects within the smoothing length of its domain, modes, edges (angles up to 180 degrees), binnings within the edges", "why_tests_cant": "tests use few ranks and one catalog; the pairs lost at domain boundaries depend on positions", "anchors": ["nbodykit/algorithms/pair_counters/mocksurvey.py:SurveyDataPairCount.run", "nbodykit/algorithms/pair_counters/domain.py:decompose_survey_data", "nbodykit/algorithms/pair_counters/domain.py:get_cartesian", "nbodykit/algorithms/pair_counters/corrfunc/mocks.py:CorrfuncMocksCallable.__call__", "nbodykit/algorithms/pair_counters/base.py:PairCountBase.__init__"]}
{"id": "C188", "title": "Angular pair counts in a box are seen from its centre", "statement": "In angular mode SimulationBoxPairCount gives for every bin the sums over all pairs of objects whose directions from the centre of the box make an angle in that bin, on any number of ranks, for positions in (0, L) or (-L/2, L/2).", "quantifier": "all catalogs in the box with no object at the centre and directions not all in a coordinate plane, edges up to 180 degrees, numbers of ranks", "why_tests_cant": "tests use one catalog", "anchors": ["nbodykit/algorithms/pair_counters/simbox.py:SimulationBoxPairCount.run", "nbodykit/algorithms/pair_counters/simbox.py:shift_to_box_center", "nbodykit/algorithms/pair_counters/domain.py:decompose_survey_data"]}
{"id": "C189", "title": "Counting pairs leaves the catalog as it was", "statement": "SimulationBoxPairCount does not change the columns of the catalogs given.", "quantifier": "all catalogs and modes", "why_tests_cant": "needs catalogs with columns ra and dec", "anchors": ["nbodykit/algorithms/pair_counters/simbox.py:SimulationBoxPairCount.run"]}
{"id": "C190", "title": "wp is twice the integral of the correlation over pi", "statement": "A correlation constant in pi gives twice its value times the range of pi; the values for two adjoining ranges of pi add up to that of both; wp is nan just if some bin of pi is.", "quantifier": "all edges (also unequal), correlations, missing values", "why_tests_cant": "tests compare one catalog with stored numbers", "anchors": ["nbodykit/algorithms/paircount_tpcf/tpcf.py:_compute_wp"]}
{"id": "C191", "title": "The monopole of to_poles is the mean over mu", "statement": "to_poles of order zero is the mean of the wedges weighted by their widths; N equal wedges of an isotropic correlation c have the quadrupole - 5 c / (8 N^2).", "quantifier": "all edges (also unequal), correlations, numbers of wedges", "why_tests_cant": "tests use one binning", "anchors": ["nbodykit/algorithms/paircount_tpcf/estimators.py:WedgeBinnedStatistic.to_poles"]}
{"id": "C192", "title": "An isotropic correlation has no quadrupole", "statement": "to_poles of wedges with the same value is zero for all orders but zero.", "quantifier": "all numbers of wedges", "why_tests_cant": "tests use tolerances", "anchors": ["nbodykit/algorithms/paircount_tpcf/estimators.py:WedgeBinnedStatistic.to_poles"]}
{"id": "C193", "title": "With randoms the estimate is that of Landy and Szalay", "statement": "With randoms, every bin with random pairs has the value (DD - DR - RD + RR) / RR of the counts divided by their total weights, other bins are nan, the counts being those of data1 and data2, data1 and randoms2, data2 and randoms1, randoms1 and randoms2, with randoms1 if there are no second randoms; exchanging the two samples gives the same correlation; a sample with itself gives the auto-correlation; counts of R1R2 given by the user are used as they are; without randoms and not in a periodic box ValueError.", "quantifier": "all pair counts (total weights not zero), samples, randoms", "why_tests_cant": "tests use one set of catalogs", "anchors": ["nbodykit/algorithms/paircount_tpcf/tpcf.py:BasePairCount2PCF.run", "nbodykit/algorithms/paircount_tpcf/estimators.py:LandySzalayEstimator"]}
{"id": "C194", "title": "A second sample without its randoms raises ValueError", "statement": "Without periodic boundaries, data2 without randoms2 raises ValueError, as documented.", "quantifier": "all samples", "why_tests_cant": "the error is documented but not tested", "anchors": ["nbodykit/algorithms/paircount_tpcf/tpcf.py:BasePairCount2PCF.run"]}
{"id": "C195", "title": "Randoms that are given are used", "statement": "If randoms are given the Landy-Szalay estimator is used, as documented.", "quantifier": "all samples and randoms", "why_tests_cant": "needs randoms2 without randoms1", "anchors": ["nbodykit/algorithms/paircount_tpcf/tpcf.py:BasePairCount2PCF.run"]}
{"id": "C196", "title": "Angular correlations with analytic randoms use the sphere around the centre of the box", "statement": "The objects kept are those within half the smallest side of the centre, for all positions SimulationBoxPairCount accepts.", "quantifier": "all positions in (0, L) or (-L/2, L/2)", "why_tests_cant": "tests use positions in (0, L) only", "anchors": ["nbodykit/algorithms/paircount_tpcf/tpcf.py:_restrict_to_spherical_volume", "nbodykit/algorithms/pair_counters/simbox.py:shift_to_box_center"]}
{"id": "C197", "title": "Saved correlation functions and pair counts are restored", "statement": "Saving and loading gives the correlation, wp and all pair counts the same dimensions, edges and values, and pair counts of all modes also the fields to be summed.", "quantifier": "all modes, edges, values, pimax (also fractional)", "why_tests_cant": "tests use one mode", "anchors": ["nbodykit/algorithms/paircount_tpcf/tpcf.py:BasePairCount2PCF.__getstate__", "nbodykit/algorithms/paircount_tpcf/tpcf.py:BasePairCount2PCF.__setstate__", "nbodykit/algorithms/pair_counters/base.py:PairCountBase.__setstate__"]}
{"id": "C198", "title": "The total weight of pairs is restored", "statement": "Loaded pair counts have the attribute total_wnpairs in pairs.attrs like those saved.", "quantifier": "all pair counts", "why_tests_cant": "tests compare the data only", "anchors": ["nbodykit/algorithms/pair_counters/base.py:PairCountBase.__getstate__", "nbodykit/algorithms/pair_counters/base.py:PairCountBase.__setstate__"]}
{"id": "C199", "title": "Pair counts loaded with a correlation function are summed when bins are merged", "statement": "The fields npairs and wnpairs of loaded D1D2 are summed by reindex as those of the saved one.", "quantifier": "all pair counts", "why_tests_cant": "tests do not reindex loaded results", "anchors": ["nbodykit/algorithms/paircount_tpcf/tpcf.py:BasePairCount2PCF.__setstate__"]}
{"id": "C200", "title": "Growth functions solve the growth equations", "statement": "At the scale factors given and at a_normalize, D1 and D2 are the solutions of the growth equations divided by their values at a_normalize (so one there), gp, gp2, gf, gf2 are the derivatives of Gp, Gp2, Gf, Gf2 against a, and f1, f2 the logarithmic derivatives; for MatterDominated efunc_prime is the derivative of efunc, and with the default Omega0_lambda E(1) = 1 and the densities add up to one.", "quantifier": "all backgrounds, initial conditions, lists of scale factors in any order with or without a_normalize and repetitions, a_normalize > 0", "why_tests_cant": "tests compare a few numbers for one cosmology", "anchors": ["nbodykit/cosmology/background.py:Perturbation.__init__", "nbodykit/cosmology/background.py:Perturbation._solve", "nbodykit/cosmology/background.py:Perturbation.ode", "nbodykit/cosmology/background.py:Perturbation.gf", "nbodykit/cosmology/background.py:MatterDominated.efunc_prime"]}
{"id": "C201", "title": "Einstein - de Sitter growth", "statement": "For MatterDominated(1) D1 is a / a_normalize, D2 is its square, f1 = 1 and f2 = 2 at all scale factors given.", "quantifier": "all lists of scale factors, a_normalize > 0", "why_tests_cant": "tests use one list", "anchors": ["nbodykit/cosmology/background.py:MatterDominated.get_initial_condition", "nbodykit/cosmology/background.py:Perturbation.ode"]}
{"id": "C202", "title": "Growth functions are one at a_normalize", "statement": "D1(a_normalize) = 1 also without a list of scale factors.", "quantifier": "all a_normalize", "why_tests_cant": "tests use a_normalize on the grid", "anchors": ["nbodykit/cosmology/background.py:Perturbation.__init__", "nbodykit/cosmology/background.py:Perturbation._solve"]}
{"id": "C203", "title": "Growth functions at other times are interpolated", "statement": "For scale factors not in the list D1 is interpolated, so that it goes on growing.", "quantifier": "all scale factors", "why_tests_cant": "tests stay within the list", "anchors": ["nbodykit/cosmology/background.py:Perturbation.D1"]}
{"id": "C204", "title": "LinearNbody grows as Perturbation", "statement": "Without velocities species that start together stay together; the solutions of Perturbation's growth equation (RadiationDominated, no massive neutrinos) are solutions of LinearNbody with p = a^2 E dq/dlna and solutions of LinearNbody for all species together satisfy the growth equation with the density of all matter.", "quantifier": "all backgrounds, wave numbers, times", "why_tests_cant": "tests compare with stored numbers", "anchors": ["nbodykit/cosmology/linearnbody.py:LinearNbody.J", "nbodykit/cosmology/linearnbody.py:LinearNbody.integrate", "nbodykit/cosmology/background.py:RadiationDominated.Om"]}
{"id": "C205", "title": "Pressure acts on its species only", "statement": "With a baryon velocity the force on baryons is reduced by an amount proportional to their own displacement, that on other species is not.", "quantifier": "all states, wave numbers not zero, times", "why_tests_cant": "tests use one wave number", "anchors": ["nbodykit/cosmology/linearnbody.py:LinearNbody.J"]}
{"id": "C206", "title": "LinearNbody works for every Cosmology", "statement": "LinearNbody(cosmo) integrates for every Cosmology with the default arguments.", "quantifier": "all cosmologies", "why_tests_cant": "tests use massive neutrinos", "anchors": ["nbodykit/cosmology/linearnbody.py:LinearNbody.J"]}
{"id": "C207", "title": "The seed of cold dark matter moves with its momentum", "statement": "The momentum of cold dark matter given by seed_from_synchronous is that for which the equations of LinearNbody move q as d' = - h'/2 does.", "quantifier": "all transfer functions, scale factors, H0", "why_tests_cant": "tests compare growth over time at low precision", "anchors": ["nbodykit/cosmology/linearnbody.py:LinearNbody.seed_from_synchronous"]}
{"id": "C208", "title": "The seeds of baryons and neutrinos move with their momentum", "statement": "The momenta of the other species are those for which q moves as d' = - (theta + h'/2).", "quantifier": "all transfer functions, scale factors", "why_tests_cant": "the error is small in the tests", "anchors": ["nbodykit/cosmology/linearnbody.py:LinearNbody.seed_from_synchronous"]}
{"id": "C209", "title": "Setting redshift and sigma8 rescales the linear power", "statement": "After any changes of redshift and sigma8 the attributes are the last ones set, the power is that of the object as made at the last redshift times the square of the ratio of the two sigma8, and sigma_r(8) at redshift zero is sigma8; changes to non-zero values never fail.", "quantifier": "all cosmologies, transfers, sequences of changes, wave numbers", "why_tests_cant": "tests make one change each", "anchors": ["nbodykit/cosmology/power/linear.py:LinearPower"]}
{"id": "C210", "title": "sigma8 can be set to any value", "statement": "sigma8 can be changed again after it was set to zero.", "quantifier": "all sequences", "why_tests_cant": "not tested", "anchors": ["nbodykit/cosmology/power/linear.py:LinearPower.sigma8"]}
{"id": "C211", "title": "Power with the transfer CLASS is that of CLASS", "statement": "For 0 < k below P_k_max the power is get_pklin(k, z) times a positive constant that depends neither on k nor on z; beyond, it continues the value at P_k_max with the shape k^n_s T^2 of Eisenstein and Hu.", "quantifier": "all cosmologies, redshifts, arrays of floats", "why_tests_cant": "tests compare a few values", "anchors": ["nbodykit/cosmology/power/linear.py:LinearPower.__call__", "nbodykit/cosmology/power/transfers.py:CLASS.__call__"]}
{"id": "C212", "title": "Integer wave numbers have the power of the same floats", "statement": "LinearPower gives the same power for integers as for floats of the same value.", "quantifier": "all integer arrays", "why_tests_cant": "tests use floats", "anchors": ["nbodykit/cosmology/power/linear.py:LinearPower.__call__"]}
{"id": "C213", "title": "The Eisenstein-Hu transfer function is normalized on large scales", "statement": "EisensteinHu(k) differs from the growth factor D(z) by at most C k^2 D(z), with a constant C of the cosmology only; so it is D(z) at k = 0 in arrays.", "quantifier": "all cosmologies with h, Tcmb0 > 0 and 0 < Omega_b < Omega_m, all redshifts, wave numbers", "why_tests_cant": "tests evaluate at a few small k", "anchors": ["nbodykit/cosmology/power/transfers.py:EisensteinHu"]}
{"id": "C214", "title": "The transfer function without wiggles is normalized on large scales", "statement": "NoWiggleEisensteinHu(k) differs from D(z) by at most C k^2 D(z) and lies in (0, D(z)].", "quantifier": "as C213, with positive alpha_gamma", "why_tests_cant": "tests evaluate at a few small k", "anchors": ["nbodykit/cosmology/power/transfers.py:NoWiggleEisensteinHu"]}
{"id": "C215", "title": "The transfer functions at k = 0 are the same for numbers and arrays", "statement": "Both analytic transfer functions give the growth factor at k = 0.", "quantifier": "all redshifts", "why_tests_cant": "tests use arrays or redshift zero", "anchors": ["nbodykit/cosmology/power/transfers.py:EisensteinHu.__call__", "nbodykit/cosmology/power/transfers.py:NoWiggleEisensteinHu.__call__"]}
{"id": "C216", "title": "beta_c is that of Eisenstein and Hu", "statement": "The attribute beta_c of EisensteinHu is equation 12 of the paper cited.", "quantifier": "all cosmologies", "why_tests_cant": "tests compare with stored numbers of the same code", "anchors": ["nbodykit/cosmology/power/transfers.py:EisensteinHu.__init__"]}
{"id": "C217", "title": "Without non-Gaussianity galaxies have linear bias", "statement": "FNLGalaxyPower is b0^2 times the linear power if fNL = 0 or b0 = p.", "quantifier": "all cosmologies, redshifts, wave numbers", "why_tests_cant": "not tested for all", "anchors": ["nbodykit/cosmology/power/galaxy.py:FNLGalaxyPower"]}
{"id": "C218", "title": "All power objects can be given to CorrelationFunction", "statement": "The four power objects have the attributes redshift, sigma8 and cosmo as documented, so CorrelationFunction accepts them.", "quantifier": "all power objects", "why_tests_cant": "not tested", "anchors": ["nbodykit/cosmology/power/galaxy.py:FNLGalaxyPower", "nbodykit/cosmology/correlation.py:CorrelationFunction.__init__"]}
{"id": "C219", "title": "Scale-dependent bias does not depend on the amplitude of the power", "statement": "The correction to the bias is a function of the transfer function, so that it is the same for powers that differ by a constant.", "quantifier": "all cosmologies", "why_tests_cant": "not tested", "anchors": ["nbodykit/cosmology/power/galaxy.py:FNLGalaxyPower.total_bias"]}
{"id": "C220", "title": "Halofit power uses the current cosmology and its range", "statement": "Beyond P_k_max there is ValueError (also for no wave number); above P_k_min the power is the nonlinear one, below the linear one; after any changes of redshift and sigma8 the cosmology has that sigma8 and attrs describe it.", "quantifier": "all wave numbers, sequences of changes", "why_tests_cant": "tests make one change", "anchors": ["nbodykit/cosmology/power/halofit.py:HalofitPower"]}
{"id": "C221", "title": "Zeldovich power follows its linear power", "statement": "After any changes of redshift and sigma8 all integrals kept are those of the current linear power, the same as for LinearPower with the same changes; the approximation at low k is at least half the linear power.", "quantifier": "all sequences of changes, wave numbers", "why_tests_cant": "tests make one change", "anchors": ["nbodykit/cosmology/power/zeldovich.py:ZeldovichPower"]}
{"id": "C222", "title": "The correlation function is proportional to sigma8 squared", "statement": "After any changes of redshift and sigma8 of the linear power, the correlation function is the one at that redshift times the square of the ratio of sigma8s, for any smoothing.", "quantifier": "all separations, smoothings, sequences of changes", "why_tests_cant": "tests make one change", "anchors": ["nbodykit/cosmology/correlation.py:CorrelationFunction"]}
{"id": "C223", "title": "attrs of CorrelationFunction describe its cosmology", "statement": "attrs['cosmo'] is the cosmology in use also after sigma8 was set.", "quantifier": "all power objects", "why_tests_cant": "not tested", "anchors": ["nbodykit/cosmology/correlation.py:CorrelationFunction.attrs"]}
{"id": "C224", "title": "Gadget snapshots are read back", "statement": "For every snapshot of format 1 or 2 with blocks of less than 2 GB: size is the number of particles of the type, the columns are those stored for it and Mass, precisions are detected from the sizes of the blocks, and read(columns, start, stop, step) returns exactly those rows of each column (the mass of the header where it is not zero); other ranges are IndexError.", "quantifier": "all snapshots, column definitions, particle types, slices", "why_tests_cant": "tests use one small file", "anchors": ["nbodykit/io/gadget.py:Gadget1File"]}
{"id": "C225", "title": "Gadget blocks of more than 2 GB are read", "statement": "Snapshots with blocks from 2 GB to 4 GB, whose sizes are unsigned numbers in the file, can be opened.", "quantifier": "all snapshots", "why_tests_cant": "test files are small", "anchors": ["nbodykit/io/gadget.py:Gadget1File.__init__"]}
{"id": "C226", "title": "The FITS extension that is read", "statement": "Without ext the first HDU with data is used, if it is a table; with a number or name exactly that HDU, if it is a table with data; otherwise ValueError (for numbers, names that do not exist and no ext).", "quantifier": "all lists of HDUs", "why_tests_cant": "tests use two files", "anchors": ["nbodykit/io/fits.py:FITSFile.__init__"]}
{"id": "C227", "title": "FITS files with an image first", "statement": "Without ext the first table is found also after an image.", "quantifier": "all lists of HDUs", "why_tests_cant": "tests have no images", "anchors": ["nbodykit/io/fits.py:FITSFile.__init__"]}
{"id": "C228", "title": "A named FITS extension that is no table is a ValueError", "statement": "As for numbers, an extension without table is reported by ValueError.", "quantifier": "all lists of HDUs", "why_tests_cant": "tests use numbers", "anchors": ["nbodykit/io/fits.py:FITSFile.__init__"]}
{"id": "C229", "title": "TPM files are read back", "statement": "For a file of 28 bytes of header and the columns Position, Velocity (3 numbers of the precision) and ID (8 bytes) size and rows are those written; another precision is a ValueError.", "quantifier": "all tables, slices", "why_tests_cant": "tests use one file", "anchors": ["nbodykit/io/tpm.py:TPMBinaryFile"]}
{"id": "C230", "title": "read() accepts the name of a column", "statement": "columns : str, as documented, reads that column.", "quantifier": "all names", "why_tests_cant": "tests pass lists", "anchors": ["nbodykit/io/binary.py:BinaryFile.read", "nbodykit/io/gadget.py:Gadget1File.read"]}
{"id": "C231", "title": "attrs of populated catalogs describe their galaxies", "statement": "After any sequence of making models, populate and repopulate, the parameters and seed in attrs of each catalog, with the halos its model was first given, give exactly its galaxies on every rank, unless it has none.", "quantifier": "all sequences, halo catalogs, models, parameters, seeds, numbers of ranks", "why_tests_cant": "tests populate once or twice", "anchors": ["nbodykit/source/catalog/halos.py:_populate_mock", "nbodykit/source/catalog/halos.py:PopulatedHaloCatalog.repopulate"]}
{"id": "C232", "title": "populate and repopulate use the parameters given", "statement": "populate with a new model fills the halos of the catalog with the model's parameters updated by those given; repopulate keeps the halos and all parameters not mentioned; the same seed and a full set of parameters reproduce the galaxies whatever was done between; a name that is no parameter is a ValueError and changes nothing.", "quantifier": "all states, parameters, seeds, numbers of ranks", "why_tests_cant": "tests use one sequence", "anchors": ["nbodykit/source/catalog/halos.py:HaloCatalog.populate", "nbodykit/source/catalog/halos.py:PopulatedHaloCatalog.repopulate", "nbodykit/source/catalog/halos.py:_populate_mock"]}
{"id": "C233", "title": "populate fills the halos of its catalog", "statement": "HaloCatalog.populate(model) fills the halos of that catalog also if the model was used before.", "quantifier": "all sequences", "why_tests_cant": "tests make a new model each time", "anchors": ["nbodykit/source/catalog/halos.py:HaloCatalog.populate", "nbodykit/source/catalog/halos.py:_populate_mock"]}
{"id": "C234", "title": "A failed repopulate leaves the catalog as it was", "statement": "If repopulate raises ValueError for no galaxies, the catalog and its attrs still belong together.", "quantifier": "all states", "why_tests_cant": "not tested", "anchors": ["nbodykit/source/catalog/halos.py:_populate_mock"]}
{"id": "C235", "title": "The seed of a populated catalog is one number", "statement": "attrs['seed'] is the same on all ranks (also when no seed was given) so that it reproduces the catalog.", "quantifier": "all numbers of ranks, seeds", "why_tests_cant": "tests give a seed", "anchors": ["nbodykit/source/catalog/halos.py:_populate_mock"]}
{"id": "C236", "title": "concentration_key names the column of concentrations", "statement": "The concentration_key given to a HOD model determines the column of concentrations used.", "quantifier": "all models, keys", "why_tests_cant": "tests use one key", "anchors": ["nbodykit/hod.py:Zheng07Model.to_halotools", "nbodykit/hod.py:HODModelFactory"]}
{"id": "C237", "title": "A saved mesh is read back", "statement": "A mesh saved by save() and opened by BigFileMesh has the same field, BoxSize, Nmesh, dtype, shape and mode, whatever numbers of ranks wrote and read it, and the field of the other mode is NotImplemented; attributes that are numbers, vectors of other than one number or can be encoded are restored, keywords are added; without ndarray.shape or Nmesh there is ValueError.", "quantifier": "all fields of two or three dimensions, real and complex, cuts over ranks, attributes", "why_tests_cant": "tests use one mesh and one communicator", "anchors": ["nbodykit/base/mesh.py:MeshSource.save", "nbodykit/source/mesh/bigfile.py:BigFileMesh"]}
{"id": "C238", "title": "Attributes of a saved mesh are restored exactly", "statement": "attrs of BigFileMesh are those of the field that was saved.", "quantifier": "all attributes", "why_tests_cant": "tests compare numbers", "anchors": ["nbodykit/base/mesh.py:MeshSource.save", "nbodykit/source/mesh/bigfile.py:BigFileMesh.__init__"]}
{"id": "C239", "title": "Keywords of BigFileMesh are stored in attrs", "statement": "The extra meta-data given to BigFileMesh is in its attrs.", "quantifier": "all keywords", "why_tests_cant": "tests give none", "anchors": ["nbodykit/source/mesh/bigfile.py:BigFileMesh.__init__"]}
{"id": "C240", "title": "ArrayMesh holds the array of the root rank", "statement": "The field of ArrayMesh is the array passed on the root rank with its shape as Nmesh for any number of ranks and any arguments on the others; for the (normalized) transform of a field with even last dimension it is that field; arrays of other than two or three dimensions are refused.", "quantifier": "all arrays, numbers of ranks, roots", "why_tests_cant": "tests use one array and root 0", "anchors": ["nbodykit/source/mesh/array.py:ArrayMesh.__init__"]}
{"id": "C241", "title": "ArrayMesh of a complex array has the mesh of its field", "statement": "For the transform of a field of any shape ArrayMesh has the shape of the field.", "quantifier": "all shapes", "why_tests_cant": "tests use even shapes", "anchors": ["nbodykit/source/mesh/array.py:ArrayMesh.__init__"]}
{"id": "C242", "title": "Keywords of ArrayMesh are stored", "statement": "The additional meta-data given to ArrayMesh is in its attrs.", "quantifier": "all keywords", "why_tests_cant": "tests give none", "anchors": ["nbodykit/source/mesh/array.py:ArrayMesh.__init__"]}
{"id": "C243", "title": "preview shows the mesh", "statement": "preview() at full resolution is the field that compute(mode='real') gives.", "quantifier": "all sources, actions", "why_tests_cant": "tests preview meshes without actions", "anchors": ["nbodykit/base/mesh.py:MeshSource.preview"]}
{"id": "C244", "title": "Compensation of interlaced meshes undoes the window", "statement": "For cic, tsc and pcs the compensation of interlaced meshes divides every mode by the product over axes of the Fourier transform of the interpolation kernel, which is never zero, so that the field that was convolved with the kernel comes back; for other windows there is ValueError.", "quantifier": "all modes with circular frequencies up to the Nyquist frequency, complex values, windows", "why_tests_cant": "tests compare power spectra at some percent", "anchors": ["nbodykit/source/mesh/catalog.py:get_compensation", "nbodykit/source/mesh/catalog.py:CompensateCIC", "nbodykit/source/mesh/catalog.py:CompensateTSC", "nbodykit/source/mesh/catalog.py:CompensatePCS"]}
{"id": "C245", "title": "Compensation without interlacing makes shot noise white", "statement": "For cic, tsc and pcs without interlacing the power of a mode is divided by the average power of the weights of a particle over its positions in a cell, exactly and without division by zero; so after compensation the average power of a particle is one at all frequencies.", "quantifier": "all frequencies, complex values, windows", "why_tests_cant": "tests compare power spectra at some percent", "anchors": ["nbodykit/source/mesh/catalog.py:get_compensation", "nbodykit/source/mesh/catalog.py:CompensateCICShotnoise", "nbodykit/source/mesh/catalog.py:CompensateTSCShotnoise", "nbodykit/source/mesh/catalog.py:CompensatePCSShotnoise"]}
{"id": "C246", "title": "Slabs of a mesh", "statement": "SlabIterator of a mesh of two or three dimensions, along any axis given by a non-negative or negative number, yields one slab for each index along it; every cell of the mesh is at one place in one slab; norm2, mu, the Hermitian weights and fields selected by the slab's index have there the values of the cell, mu being zero at the origin, the mask nonsingular being true and the weights two where the coordinate along the symmetry axis is positive and one elsewhere; other axes are refused with AssertionError, other dimensions with NotImplementedError.", "quantifier": "all coordinates, sizes, axes, symmetry axes, lines of sight", "why_tests_cant": "tests check some slabs of one mesh", "anchors": ["nbodykit/meshtools.py:SlabIterator", "nbodykit/meshtools.py:MeshSlab"]}
{"id": "C247", "title": "Setting a variable of a binned statistic", "statement": "After d[x] = v the variable x has the values and type of v, the other variables, dimensions, edges, coordinates and attributes are as before, and a cell is masked when it was before or v is not finite there, so that for a new variable the mask stays exact; an array of another shape is refused with ValueError.", "quantifier": "all statistics, names, arrays", "why_tests_cant": "tests set one variable and look at that one", "anchors": ["nbodykit/binned_statistic.py:BinnedStatistic.__setitem__"]}
{"id": "C248", "title": "The mask marks the cells that are not finite after a variable is replaced", "statement": "After d[x] = v the mask marks exactly the cells with a value that is not finite.", "quantifier": "all statistics and variables", "why_tests_cant": "tests add new variables", "anchors": ["nbodykit/binned_statistic.py:BinnedStatistic.__setitem__"]}
{"id": "C249", "title": "Renaming variables and squeezing", "statement": "rename_variable keeps values, types and mask and changes one name; an unknown old name or a new name that another variable has gives ValueError.  squeeze() without a dimension removes the only dimension of length one, all values at their other indices, and gives ValueError when there is none or more than one or no other dimension.", "quantifier": "all statistics and names", "why_tests_cant": "tests use one statistic", "anchors": ["nbodykit/binned_statistic.py:BinnedStatistic.rename_variable", "nbodykit/binned_statistic.py:BinnedStatistic.squeeze"]}
{"id": "C250", "title": "A renamed variable is rebinned as before", "statement": "Rebinning after rename_variable gives the same values as before under the new name.", "quantifier": "all statistics, names, rebinnings", "why_tests_cant": "tests do not rebin after renaming", "anchors": ["nbodykit/binned_statistic.py:BinnedStatistic.rename_variable", "nbodykit/binned_statistic.py:BinnedStatistic.reindex"]}
{"id": "C251", "title": "A binned statistic is read back from its JSON file", "statement": "from_json of the file of to_json has the same dimensions, edges, coordinates, variables and data, whatever dimensions and edges are given as arguments, masks exactly the cells that are not finite, and has the attributes with those given as keywords replaced, when no attribute is named like an argument of the constructor; a file without dimensions and edges takes those given; a key that is not in the file, or dimensions or edges neither in the file nor given, give ValueError.", "quantifier": "all statistics and keywords", "why_tests_cant": "tests read back one statistic", "anchors": ["nbodykit/binned_statistic.py:BinnedStatistic.to_json", "nbodykit/binned_statistic.py:BinnedStatistic.from_json", "nbodykit/binned_statistic.py:BinnedStatistic.__getstate__"]}
{"id": "C252", "title": "All attributes are read back from JSON files", "statement": "from_json of the file of to_json has the same attributes, whatever their names.", "quantifier": "all attributes", "why_tests_cant": "tests use a few attributes", "anchors": ["nbodykit/binned_statistic.py:BinnedStatistic.from_json"]}
{"id": "C253", "title": "Plain text files are read", "statement": "from_plaintext reads a table of one or two dimensions, of real variables and pairs of columns x.real and x.imag, back with the same variables in the same order and values, edges, shape and meta-data, and keywords replacing meta-data.", "quantifier": "all tables, names without white space, edges, meta-data of types other than bool", "why_tests_cant": "tests read two files", "anchors": ["nbodykit/binned_statistic.py:BinnedStatistic.from_plaintext", "nbodykit/binned_statistic.py:_Read1DPlainText", "nbodykit/binned_statistic.py:_Read2DPlainText"]}
{"id": "C254", "title": "Default names of columns in plain text files", "statement": "When the column names are not given in a file of one dimension they are 'col_0', 'col_1', and so on.", "quantifier": "all files", "why_tests_cant": "tests give names", "anchors": ["nbodykit/binned_statistic.py:_Read1DPlainText"]}
{"id": "C255", "title": "Meta-data of plain text files is read with its type", "statement": "Meta-data of a type given in the file has the value that was written, also for flags and texts.", "quantifier": "all meta-data", "why_tests_cant": "tests have numbers", "anchors": ["nbodykit/binned_statistic.py:_Read1DPlainText", "nbodykit/binned_statistic.py:_Read2DPlainText"]}
{"id": "C256", "title": "Columns of HDF files", "statement": "HDFFile of a group or structured data set has exactly one column for each data set or field below it that is not excluded, with its type, and their common length as size; read() of any columns in any order gives the rows start:stop:step of those columns; columns of different lengths, or a data set or group not in the file, give ValueError.", "quantifier": "all files with arbitrarily nested groups, exclusions, columns and ranges of rows", "why_tests_cant": "tests have one group and one structured data set", "anchors": ["nbodykit/io/hdf.py:HDFFile.__init__", "nbodykit/io/hdf.py:HDFFile.read", "nbodykit/io/hdf.py:find_datasets"]}
{"id": "C257", "title": "A data set without fields can be opened as the data set", "statement": "HDFFile(path, dataset=name) of a data set without fields can be read.", "quantifier": "all files", "why_tests_cant": "tests open groups and structured data sets", "anchors": ["nbodykit/io/hdf.py:HDFFile.__init__", "nbodykit/io/hdf.py:HDFFile.read"]}
{"id": "C258", "title": "The header of HDF files is kept", "statement": "The attributes of the header are in attrs of the HDFFile.", "quantifier": "all files and headers", "why_tests_cant": "tests have groups with several data sets", "anchors": ["nbodykit/io/hdf.py:HDFFile.__init__"]}
{"id": "C259", "title": "Views of files", "statement": "Selecting columns, also repeatedly, gives a view with the chosen columns in the chosen order, whose rows by number, slice, mask or list are those of the file; asarray() puts columns of the same type next to each other and a second index selects among them; one name gives the column with its numbers or vectors; get_dask gives the whole column for every block size; unknown, no or repeated columns, several columns with vectors, different types, a second index on records and views of arrays are refused with the documented exceptions.", "quantifier": "all tables, readers that return the rows asked for, series of selections, row selections, block sizes", "why_tests_cant": "tests use a few columns and slices", "anchors": ["nbodykit/io/base.py:FileType.__getitem__", "nbodykit/io/base.py:FileType.asarray", "nbodykit/io/base.py:FileType.get_dask"]}
{"id": "C260", "title": "Columns of matrices are read with their shape", "statement": "A column whose entries are matrices is read as array with the shape of the view, and has a dask array.", "quantifier": "all tables", "why_tests_cant": "tests have numbers and vectors", "anchors": ["nbodykit/io/base.py:FileType.__getitem__", "nbodykit/io/base.py:FileType.get_dask"]}
{"id": "C261", "title": "Bins of equal modulus", "statement": "In a cubic box, FFTPower(dk=0) has exactly one bin for each modulus of a mode below kmax: its coordinate is the modulus, which lies in the bin, and no other modulus below kmax does, for any distribution of the modes over ranks; with fewer than two moduli it fails with IndexError.", "quantifier": "all sizes of the box, meshes with sums of squared wave numbers below 2.5e9, distributions over ranks, kmin and kmax", "why_tests_cant": "tests use one mesh on few ranks", "anchors": ["nbodykit/algorithms/fftpower.py:_find_unique_edges", "nbodykit/algorithms/fftpower.py:FFTPower.run"]}
{"id": "C262", "title": "With dk=0 all modes of a bin have the same modulus", "statement": "Every bin of FFTPower(dk=0) contains modes of one modulus only.", "quantifier": "all cubic meshes", "why_tests_cant": "only the last bin is affected, for some meshes", "anchors": ["nbodykit/algorithms/fftpower.py:_find_unique_edges"]}
{"id": "C263", "title": "With dk=0 different moduli are in different bins for all boxes", "statement": "Modes of different modulus below kmax are in different bins of FFTPower(dk=0), also when the box is not cubic.", "quantifier": "all boxes", "why_tests_cant": "tests use cubic boxes", "anchors": ["nbodykit/algorithms/fftpower.py:_find_unique_edges"]}
{"id": "C264", "title": "Linear bins", "statement": "With dk>0 the edges in k are exactly the numbers kmin + i dk below kmax; the default kmax keeps every edge below the Nyquist frequency of every axis plus dk/2; by default a cubic mesh of N cells has the edges 0 ... floor(N/2) times the fundamental.", "quantifier": "all boxes, meshes, kmin, kmax and dk > 0", "why_tests_cant": "all combinations of sizes", "anchors": ["nbodykit/algorithms/fftpower.py:FFTPower.run", "nbodykit/algorithms/fftpower.py:FFTPower.__init__"]}
{"id": "C265", "title": "The bins reach the Nyquist frequency", "statement": "By default the bins reach the smallest of the Nyquist frequencies of the axes.", "quantifier": "all boxes and meshes", "why_tests_cant": "tests use cubic boxes", "anchors": ["nbodykit/algorithms/fftpower.py:FFTPower.run"]}
{"id": "C266", "title": "kmin is the lower edge of the first bin", "statement": "The lower edge of the first k bin is kmin.", "quantifier": "all parameters", "why_tests_cant": "tests do not combine kmin and dk=0", "anchors": ["nbodykit/algorithms/fftpower.py:FFTPower.run", "nbodykit/algorithms/fftpower.py:_find_unique_edges"]}
{"id": "C267", "title": "Sources and modes of the power", "statement": "A catalog, field or mesh source is used with the BoxSize and Nmesh given or its own; other types give TypeError, missing or different ones ValueError, also different boxes of the two sources. Every mode of the power is V c1 conj(c2), the zero mode is 0, although the product is computed in the memory of the first field; N1, N2 are the numbers of objects (0 if unknown) and shotnoise that of the first field when there is one source (or twice the same mesh object), else 0.", "quantifier": "all sources, fields, divisions into slabs", "why_tests_cant": "tests compare a few spectra", "anchors": ["nbodykit/algorithms/fftpower.py:FFTBase.__init__", "nbodykit/algorithms/fftpower.py:FFTBase._compute_3d_power", "nbodykit/algorithms/fftpower.py:_cast_source"]}
{"id": "C268", "title": "The auto power of a catalog has its shot noise", "statement": "FFTPower(cat, second=cat) has the shot noise of FFTPower(cat).", "quantifier": "all catalogs", "why_tests_cant": "the powers are equal, only the attribute differs", "anchors": ["nbodykit/algorithms/fftpower.py:FFTBase.__init__", "nbodykit/algorithms/fftpower.py:FFTBase._compute_3d_power", "nbodykit/algorithms/fftpower.py:_cast_source"]}
{"id": "C269", "title": "Shapes of power spectra and correlation functions", "statement": "With more than one (or no) bin in k, and in mu for mode 2d, the power has dimension k (1d) or k and mu (2d), the given edges and coordinates, and in every bin the averages of that bin; poles is None without multipoles, else it has dimension k and every requested multipole in every bin; repeated multipoles give ValueError. The same holds for FFTCorr with r.", "quantifier": "all edges, numbers of bins, lists of multipoles, values", "why_tests_cant": "tests have one shape", "anchors": ["nbodykit/algorithms/fftpower.py:FFTPower.run", "nbodykit/algorithms/fftpower.py:FFTPower._make_datasets", "nbodykit/algorithms/fftcorr.py:FFTCorr.run", "nbodykit/algorithms/fftcorr.py:FFTCorr._make_datasets"]}
{"id": "C270", "title": "A single bin is possible", "statement": "FFTPower with one k bin, or in mode 2d with one mu bin (Nmu=1), gives a result with one bin.", "quantifier": "all parameters", "why_tests_cant": "tests use many bins", "anchors": ["nbodykit/algorithms/fftpower.py:FFTPower.run", "nbodykit/algorithms/fftcorr.py:FFTCorr.run"]}
{"id": "C271", "title": "Saved power spectra and correlation functions are loaded", "statement": "load(save()) of FFTPower and FFTCorr has the same dimensions, edges, coordinates, variables and data of the power (corr) and, if there are multipoles, of poles.", "quantifier": "all results", "why_tests_cant": "tests compare the data", "anchors": ["nbodykit/algorithms/fftpower.py:FFTBase.load", "nbodykit/algorithms/fftpower.py:FFTPower.__getstate__", "nbodykit/algorithms/fftpower.py:FFTPower.__setstate__", "nbodykit/algorithms/fftcorr.py:FFTCorr.__setstate__"]}
{"id": "C272", "title": "Loaded results have the attribute poles", "statement": "A loaded FFTPower (FFTCorr) without multipoles has poles None like the one that was saved.", "quantifier": "all results", "why_tests_cant": "tests use multipoles", "anchors": ["nbodykit/algorithms/fftpower.py:FFTPower.__setstate__", "nbodykit/algorithms/fftcorr.py:FFTCorr.__setstate__"]}
{"id": "C273", "title": "Bins in separation", "statement": "With dr>0 the edges of FFTCorr are exactly the numbers rmin + i dr below rmax; by default every edge is below half of each side of the box plus dr/2 and all below half of the smallest side are there.", "quantifier": "all boxes, meshes and parameters", "why_tests_cant": "all combinations of sizes", "anchors": ["nbodykit/algorithms/fftcorr.py:FFTCorr.run"]}
{"id": "C274", "title": "Real and complex meshes carry the same information", "statement": "Transforming a mesh to Fourier space and back gives the same values in every cell; transforming the modes of a real field to a mesh and back gives the same modes; the modes of a mesh are those of a real field, the zero mode is its mean; moving the mesh by cells turns every mode by its phase; a cosine of amplitude A and phase phi has A/2 exp(i phi) in its mode, the conjugate in the opposite one, and nothing elsewhere.", "quantifier": "all mesh sizes, also odd ones, all fields and modes", "why_tests_cant": "tests transform random fields and compare approximately", "anchors": ["nbodykit/base/mesh.py:MeshSource.compute", "nbodykit/base/mesh.py:MeshSource.to_field"]}
{"id": "C275", "title": "The correlation function is an average over pairs of cells", "statement": "The 3-d correlation of FFTCorr at a separation r (in cells) is the mean over the periodic mesh of f(x+r) g(x), less the product of the means: the mean product of the fluctuations; r points from the second field to the first.", "quantifier": "all mesh sizes, boxes, fields, separations", "why_tests_cant": "tests compare with one measured correlation function", "anchors": ["nbodykit/algorithms/fftcorr.py:FFTCorr.run", "nbodykit/algorithms/fftpower.py:FFTBase._compute_3d_power"]}
{"id": "C276", "title": "Properties of the 3-d power", "statement": "The sum of the 3-d power over all modes is the volume times the covariance of the two fields; the power of a field with itself is real and not negative; exchanging the fields conjugates it; moving both fields by whole cells, or adding constants, does not change it, factors come out; a cosine of amplitude A has V A^2/4 in its two modes.", "quantifier": "all mesh sizes, boxes, fields, modes", "why_tests_cant": "tests look at binned power of one realisation", "anchors": ["nbodykit/algorithms/fftpower.py:FFTBase._compute_3d_power"]}
{"id": "C277", "title": "Interlacing removes the odd images", "statement": "A wave sampled on the mesh and on the mesh shifted by half a cell, whose wave numbers exceed those of a mode below the Nyquist frequency by multiples of the mesh size, is absent from the interlaced mesh in every cell if the sum of the multiples is odd, and is the sampled wave if it is even. For any two meshes the modes below the Nyquist frequency are the averages of the two, each with the phases of its positions; the mean is the mean of both.", "quantifier": "all mesh sizes, boxes, waves, amplitudes, phases, meshes", "why_tests_cant": "tests compare interlaced and plain power at a few wave numbers", "anchors": ["nbodykit/source/mesh/catalog.py:CatalogMesh.to_real_field"]}
{"id": "C278", "title": "Interlacing keeps waves at the Nyquist frequency", "statement": "A wave whose wave numbers are those of a mode of the mesh is kept by interlacing, also at the Nyquist frequency.", "quantifier": "all modes", "why_tests_cant": "the power at the Nyquist frequency is not tested", "anchors": ["nbodykit/source/mesh/catalog.py:CatalogMesh.to_real_field"]}
{"id": "C279", "title": "Reconstruction displacements solve the linear continuity equation", "statement": "For a unit line of sight n, positive bias b and growth rate f >= 0 the displacement s that FFTRecon solves on the mesh from the painted data satisfies, in every mode below the Nyquist frequency except the mean, -b div s - f n.grad(n.s) = the density contrast smoothed with a Gaussian of radius R; it is free of curl and its mean vanishes.", "quantifier": "all mesh sizes, boxes, painted data, lines of sight, bias, f, R", "why_tests_cant": "tests run the reconstruction on one catalog and check that it does not fail", "anchors": ["nbodykit/algorithms/fftrecon.py:FFTRecon._compute_s"]}
{"id": "C280", "title": "Reconstruction of a plane wave", "statement": "For a density c + A cos(k.x + phi) with k below the Nyquist frequency the displacement in every cell is -A exp(-k^2 R^2/2) k/(b k^2 + f (k.n)^2) sin(k.x + phi): towards the overdensities, so that subtracting it moves objects away from them.", "quantifier": "all waves, amplitudes, phases, boxes, mesh sizes, bias, f, R, lines of sight", "why_tests_cant": "signs and factors of the kernel are not tested", "anchors": ["nbodykit/algorithms/fftrecon.py:FFTRecon._compute_s"]}
{"id": "C281", "title": "The power measured from a linear mesh is the input power", "statement": "FFTPower's 3-d power of a LinearMesh is Plin(k) times the squared modulus of the white noise in every mode (k not 0), so exactly Plin(k) with unitary_amplitude; the mean of the mesh is 1; the cross power with the mesh of inverted phase is minus that.", "quantifier": "all power spectra, boxes, mesh sizes, white noise fields", "why_tests_cant": "tests compare binned power approximately, for one seed", "anchors": ["nbodykit/source/mesh/linear.py:LinearMesh.to_complex_field", "nbodykit/mockmaker.py:gaussian_complex_fields", "nbodykit/algorithms/fftpower.py:FFTBase._compute_3d_power"]}
{"id": "C282", "title": "Reconstruction recovers the displacement of a Gaussian mock", "statement": "The displacement FFTRecon solves from the density of a LinearMesh with bias 1, f 0 and R 0 is, in every cell and along every axis, the displacement gaussian_complex_fields gives for the same seed.", "quantifier": "all power spectra, boxes, mesh sizes, white noise fields, axes", "why_tests_cant": "the two modules are never compared", "anchors": ["nbodykit/algorithms/fftrecon.py:FFTRecon._compute_s", "nbodykit/mockmaker.py:gaussian_complex_fields"]}
{"id": "C283", "title": "Columns of catalog classes", "statement": "A catalog lists exactly the columns that were set and those that some class of its order of resolution declares with @column; a column that was set gives the value set; a declared one gives the result of the definition in the first class that has the name, also when that is not decorated, and is a default column unless some class declares it as no default; every other name gives KeyError.", "quantifier": "all hierarchies of classes whose columns have the names of their functions, all columns set", "why_tests_cant": "tests use the classes of the package", "anchors": ["nbodykit/base/catalog.py:column", "nbodykit/base/catalog.py:ColumnFinder", "nbodykit/base/catalog.py:CatalogSourceBase.__getitem__", "nbodykit/base/catalog.py:CatalogSourceBase.get_hardcolumn"]}
{"id": "C284", "title": "A column is a default column when its definition says so", "statement": "cat[name].is_default is the is_default of the definition that is used for the column.", "quantifier": "all classes", "why_tests_cant": "no class of the package redeclares a column", "anchors": ["nbodykit/base/catalog.py:ColumnFinder", "nbodykit/base/catalog.py:CatalogSourceBase.__getitem__"]}
{"id": "C285", "title": "Columns can be given another name than their function", "statement": "A column declared with @column(name=n) is listed as n and can be read as cat[n].", "quantifier": "all names", "why_tests_cant": "the package does not use the argument", "anchors": ["nbodykit/base/catalog.py:column", "nbodykit/base/catalog.py:CatalogSourceBase.get_hardcolumn"]}
{"id": "C286", "title": "to_mesh uses its arguments and the catalog's attrs", "statement": "The mesh of to_mesh has the Nmesh and BoxSize given or else those of attrs, numbers standing for equal sides (three dimensions if Nmesh is a number), the resampler (or window), interlaced and compensated as given, all other attributes of the catalog, and the columns of the given names; it is made whenever these exist and fit, and refused with ValueError when weight or selection, the resampler, BoxSize or Nmesh are missing.", "quantifier": "all catalogs, attributes, arguments", "why_tests_cant": "tests use a few arguments", "anchors": ["nbodykit/base/catalog.py:CatalogSourceBase.to_mesh", "nbodykit/base/mesh.py:MeshSource.__init__", "nbodykit/source/mesh/catalog.py:CatalogMesh.__init__"]}
{"id": "C287", "title": "to_mesh refuses missing columns with ValueError", "statement": "A catalog without one of the four columns that to_mesh is asked to use is refused with ValueError.", "quantifier": "all catalogs and names", "why_tests_cant": "tests leave out the weight", "anchors": ["nbodykit/base/catalog.py:CatalogSourceBase.to_mesh"]}
{"id": "C288", "title": "The resampler can be named in either case", "statement": "A mesh made with resampler=r has the compensation of a mesh whose resampler is set to r later.", "quantifier": "all names of resamplers", "why_tests_cant": "tests use lower case", "anchors": ["nbodykit/source/mesh/catalog.py:CatalogMesh.__init__", "nbodykit/source/mesh/catalog.py:get_compensation"]}
{"id": "C289", "title": "Meshes of several species", "statement": "MultipleSpeciesCatalog has the attributes of every species with the name of the species and a dot before their names; its to_mesh without BoxSize (Nmesh) uses the value given by its keywords and species, agreeing with all that give one, a number agreeing with a vector of it; it succeeds when they agree and every species has the four columns, and a mesh is only made when they do.", "quantifier": "all species with names without dots, attributes, keywords, arguments", "why_tests_cant": "tests use two species with equal boxes", "anchors": ["nbodykit/source/catalog/species.py:MultipleSpeciesCatalog.__init__", "nbodykit/source/catalog/species.py:MultipleSpeciesCatalog.to_mesh", "nbodykit/source/catalog/species.py:check_species_metadata"]}
{"id": "C290", "title": "BoxSize is that of a species for all names of species", "statement": "The BoxSize of the mesh of a MultipleSpeciesCatalog is one that its species or keywords give.", "quantifier": "all names of species", "why_tests_cant": "tests use simple names", "anchors": ["nbodykit/source/catalog/species.py:check_species_metadata", "nbodykit/source/catalog/species.py:MultipleSpeciesCatalog.__init__"]}
{"id": "C291", "title": "Unknown resamplers are refused for several species", "statement": "to_mesh of a MultipleSpeciesCatalog refuses a resampler that does not exist, as that of other catalogs does.", "quantifier": "all names", "why_tests_cant": "tests use existing ones", "anchors": ["nbodykit/source/catalog/species.py:MultipleSpeciesCatalog.to_mesh"]}
{"id": "C292", "title": "Weights of FKP catalogs", "statement": "With P0 >= 0, FKPCatalog gives every object of data and randoms the FKPWeight w with w (1 + P0 nbar) = 1, between 0 and 1, replacing one that is there; without P0 an existing FKPWeight is kept and a missing one is 1; no other column changes; the catalog is made exactly if data and (given) randoms have the column nbar.", "quantifier": "all catalogs, columns, P0, with and without randoms", "why_tests_cant": "tests use a few numbers", "anchors": ["nbodykit/algorithms/convpower/catalog.py:FKPWeightFromNbar", "nbodykit/algorithms/convpower/catalog.py:FKPCatalog.__init__"]}
{"id": "C293", "title": "Meta-data of the convolved power", "statement": "After ConvolvedFFTPower of a mesh (or two meshes of one FKPCatalog), attrs has the numbers and weighted numbers of the selected data and randoms, alpha is their ratio, data.norm and randoms.norm the sums of nbar w_comp w_fkp,1 w_fkp,2 (randoms times alpha), shotnoise the sum of w_comp^2 w_fkp,1 w_fkp,2 (randoms times alpha^2) over randoms.norm, and the power is divided by randoms.norm; the first four have the prefix first. when two meshes are used.", "quantifier": "all catalogs with finite columns, selections, meshes, whose attrs do not use these names", "why_tests_cant": "tests check one catalog", "anchors": ["nbodykit/algorithms/convpower/fkp.py:ConvolvedFFTPower._compute_multipoles", "nbodykit/algorithms/convpower/fkp.py:ConvolvedFFTPower.normalization", "nbodykit/algorithms/convpower/fkp.py:ConvolvedFFTPower.shotnoise", "nbodykit/algorithms/convpower/fkp.py:copy_meta", "nbodykit/algorithms/convpower/catalogmesh.py:FKPCatalogMesh.to_real_field"]}
{"id": "C294", "title": "The shot noise of data and randoms is in the meta-data", "statement": "attrs of ConvolvedFFTPower has data.shotnoise and randoms.shotnoise, as documented.", "quantifier": "all runs", "why_tests_cant": "tests look at the total", "anchors": ["nbodykit/algorithms/convpower/fkp.py:ConvolvedFFTPower.run", "nbodykit/algorithms/convpower/catalogmesh.py:FKPCatalogMesh.to_real_field"]}
{"id": "C295", "title": "The meta-data of the power do not depend on those of the catalogs", "statement": "data.N, data.W, data.norm and alpha of ConvolvedFFTPower are computed from the objects whatever attributes the catalogs have.", "quantifier": "all attributes of the catalogs", "why_tests_cant": "tests use catalogs with few attributes", "anchors": ["nbodykit/base/mesh.py:MeshSource._paint_XXX", "nbodykit/algorithms/convpower/fkp.py:copy_meta"]}
{"id": "C296", "title": "The FKP field sums to zero", "statement": "If painting keeps the total, the sum of the field of an FKPCatalogMesh times the volume of a cell is the weighted number of data less alpha times that of randoms (weights w_comp w_fkp); it is zero when all FKP weights are equal.", "quantifier": "all catalogs, selections, meshes and kernels that keep the total", "why_tests_cant": "tests compare one spectrum", "anchors": ["nbodykit/algorithms/convpower/catalogmesh.py:FKPCatalogMesh.to_real_field", "nbodykit/algorithms/convpower/catalogmesh.py:FKPCatalogMesh.weighted_total", "nbodykit/algorithms/convpower/catalogmesh.py:FKPCatalogMesh.TotalWeight"]}
{"id": "C297", "title": "Sources of the convolved power", "statement": "ConvolvedFFTPower takes FKPCatalog (with Nmesh) and FKPCatalogMesh (whose Nmesh has to be the one given, if given, ValueError otherwise), other objects give TypeError; two meshes with different catalogs or different columns for selection, completeness or nbar give NotImplementedError; for meshes in different boxes both get, along every axis, the larger size and its centre.", "quantifier": "all pairs of meshes", "why_tests_cant": "all combinations of boxes", "anchors": ["nbodykit/algorithms/convpower/fkp.py:_cast_mesh", "nbodykit/algorithms/convpower/fkp.py:is_valid_crosscorr", "nbodykit/algorithms/convpower/fkp.py:ConvolvedFFTPower.__init__", "nbodykit/algorithms/convpower/catalogmesh.py:FKPCatalogMesh.recenter_box"]}
{"id": "C298", "title": "The field of the joint box is a density in that box", "statement": "For two meshes in different boxes the painted numbers of objects are divided by the volume of a cell of the box they are painted in.", "quantifier": "all pairs of meshes", "why_tests_cant": "tests use one box", "anchors": ["nbodykit/algorithms/convpower/catalogmesh.py:FKPCatalogMesh.recenter_box", "nbodykit/algorithms/convpower/catalogmesh.py:FKPCatalogMesh.to_real_field"]}
{"id": "C299", "title": "The power of data without randoms has a finite shot noise", "statement": "ConvolvedFFTPower of an FKPCatalog with randoms=None has numbers in its meta-data.", "quantifier": "all catalogs", "why_tests_cant": "tests look at the power only", "anchors": ["nbodykit/algorithms/convpower/fkp.py:ConvolvedFFTPower.shotnoise", "nbodykit/algorithms/convpower/catalogmesh.py:FKPCatalogMesh.to_real_field"]}
{"id": "C300", "title": "compensated decides about the compensation", "statement": "The effect of the resampler is divided out of the convolved power if and only if the mesh has compensated=True, and the mesh is not changed.", "quantifier": "all meshes", "why_tests_cant": "tests use the default", "anchors": ["nbodykit/algorithms/convpower/fkp.py:ConvolvedFFTPower._compute_multipoles", "nbodykit/algorithms/convpower/fkp.py:get_compensation"]}
{"id": "C301", "title": "Meshes of FKP catalogs", "statement": "The mesh of FKPCatalog.to_mesh has the given Nmesh, BoxSize and BoxCenter, or else Nmesh of attrs and the box and centre of the objects; the meta-data agree with the box and cells in use, the centre unless attrs has one; it is only made if both species have the two weight columns.", "quantifier": "all catalogs and arguments", "why_tests_cant": "all combinations of arguments", "anchors": ["nbodykit/algorithms/convpower/catalog.py:FKPCatalog.to_mesh", "nbodykit/algorithms/convpower/catalogmesh.py:FKPCatalogMesh.__init__"]}
{"id": "C302", "title": "The given BoxCenter is used", "statement": "FKPCatalog.to_mesh(BoxCenter=c) gives a mesh with the centre c.", "quantifier": "all attributes of the catalog", "why_tests_cant": "tests have no centre in attrs", "anchors": ["nbodykit/algorithms/convpower/catalogmesh.py:FKPCatalogMesh.__init__", "nbodykit/source/mesh/catalog.py:CatalogMesh.__init__"]}
{"id": "C303", "title": "Halos of friends-of-friends groups", "statement": "FOF.to_halos has one halo for every group label >= 1 that has members, in the order of the labels, with Mass the particle mass times the number of members, and Position and Velocity the mean of the members (of those where peakcolumn is greatest, for posdef 'peak'), periodic in the box; the sum of the masses is that of all particles in groups; attrs are those of FOF, else of the source, with particle_mass, redshift and mdef. Another posdef gives AssertionError, a source without Velocity ValueError.", "quantifier": "all particles, labels, ranks that have particles, attrs without the names self, data and comm, open and periodic boxes", "why_tests_cant": "tests look at one catalog", "anchors": ["nbodykit/algorithms/fof.py:FOF.to_halos", "nbodykit/algorithms/fof.py:fof_catalog", "nbodykit/algorithms/fof.py:centerofmass"]}
{"id": "C304", "title": "All halos are handed to halotools", "statement": "to_halotools of a HaloCatalog has on every rank a table with every halo of the rank once: positions, velocities, mass and radius under the names of the mass definition, concentration, numbers that go through all ranks in order, no hosts, and the box given or that of attrs; a catalog without halos or box, a column None or missing gives ValueError, a source that is no catalog TypeError.", "quantifier": "all sources, columns, ranks, boxes", "why_tests_cant": "tests use one rank and one catalog", "anchors": ["nbodykit/source/catalog/halos.py:HaloCatalog.__init__", "nbodykit/source/catalog/halos.py:HaloCatalog.to_halotools"]}
{"id": "C305", "title": "Halo columns follow the masses", "statement": "After Mass, Position, Velocity or other columns of a HaloCatalog are set any number of times, and in any selection of rows, to_halotools describes the current halos, with the radius and concentration of the current masses; VelocityOffset is Velocity (1+z) / (100 E(z)).", "quantifier": "all histories, selections, cosmologies", "why_tests_cant": "tests do not set columns", "anchors": ["nbodykit/source/catalog/halos.py:HaloCatalog.Radius", "nbodykit/source/catalog/halos.py:HaloCatalog.Concentration", "nbodykit/source/catalog/halos.py:HaloCatalog.VelocityOffset", "nbodykit/source/catalog/halos.py:HaloCatalog.Mass", "nbodykit/source/catalog/halos.py:HaloCatalog.to_halotools", "nbodykit/base/catalog.py:CatalogSourceBase.__getitem__"]}
{"id": "C306", "title": "Halo columns follow the masses in selections", "statement": "After Mass of a selection of rows of a HaloCatalog is set, Radius is that of the current masses.", "quantifier": "all selections", "why_tests_cant": "tests do not set columns", "anchors": ["nbodykit/source/catalog/halos.py:HaloCatalog.Radius", "nbodykit/base/catalog.py:CatalogSourceBase.get_hardcolumn"]}
{"id": "C307", "title": "The table has the columns of its mass definition", "statement": "The table of to_halotools with mass definition mdef has the columns halo_m+mdef and halo_r+mdef, also when attrs['mdef'] was changed.", "quantifier": "all definitions", "why_tests_cant": "tests do not change attrs", "anchors": ["nbodykit/source/catalog/halos.py:HaloCatalog.to_halotools", "nbodykit/source/catalog/halos.py:HaloCatalog.__init__"]}
{"id": "C308", "title": "Halos for all meta-data", "statement": "to_halos works whatever attributes the source has.", "quantifier": "all attributes", "why_tests_cant": "tests have few attributes", "anchors": ["nbodykit/algorithms/fof.py:FOF.to_halos"]}
{"id": "C309", "title": "Shot noise is the mean power of objects placed at random", "statement": "The 3-d power of weighted objects on mesh points at k != 0 is V |W(k)|^2 |sum w exp(-ikx)|^2 / (sum w)^2 with W the transform of the window; its mean over all placements of the objects on the mesh points is |W(k)|^2 times the shotnoise reported in attrs, which does not depend on the placement; with the whole mass in the nearest cell it is shotnoise.", "quantifier": "all meshes, boxes, windows, numbers of objects, weights, selections, ranks, chunks and throttle patterns", "why_tests_cant": "random placements can be sampled only, and only for a few numbers of objects", "anchors": ["nbodykit/source/mesh/catalog.py:CatalogMesh.to_real_field", "nbodykit/algorithms/fftpower.py:FFTBase._compute_3d_power"]}
{"id": "C310", "title": "Mean correlation of objects placed at random", "statement": "The 3-d correlation function of objects with their mass in one cell has the mean shotnoise / V (Ncell [r = 0] - 1) over all placements.", "quantifier": "all meshes, boxes, numbers of objects, weights, selections, ranks", "why_tests_cant": "random placements can be sampled only", "anchors": ["nbodykit/source/mesh/catalog.py:CatalogMesh.to_real_field", "nbodykit/algorithms/fftpower.py:FFTBase._compute_3d_power", "nbodykit/algorithms/fftcorr.py:FFTCorr.run"]}
{"id": "C311", "title": "Cross power has no shot noise", "statement": "The mean over all placements of one catalog of its cross power with any other mesh is zero at every mode, and the reported shotnoise is zero.", "quantifier": "all meshes, catalogs, windows, other meshes", "why_tests_cant": "random placements can be sampled only", "anchors": ["nbodykit/source/mesh/catalog.py:CatalogMesh.to_real_field", "nbodykit/algorithms/fftpower.py:FFTBase._compute_3d_power"]}
{"id": "C312", "title": "Two meshes of one catalog have its shot noise", "statement": "The shotnoise reported for the power of two meshes made of the same catalog is the mean power of its objects placed at random.", "quantifier": "all catalogs", "why_tests_cant": "tests pass one mesh once", "anchors": ["nbodykit/algorithms/fftpower.py:FFTBase._compute_3d_power"]}
{"id": "C313", "title": "The power depends on the objects only", "statement": "The 3-d power and shotnoise of a catalog do not change when its objects are in another order, on other ranks or painted in other chunks, when all weights are multiplied by a positive number, or when all objects are moved by whole cells (periodically).", "quantifier": "all catalogs, positions of any kind, windows that move with the object, interlaced or not (order and ranks), chunk sizes, throttle patterns", "why_tests_cant": "tests compare two runs on a few ranks", "anchors": ["nbodykit/source/mesh/catalog.py:CatalogMesh.to_real_field", "nbodykit/algorithms/fftpower.py:FFTBase._compute_3d_power"]}
{"id": "C314", "title": "Bounds of the power of objects", "statement": "The 3-d power of objects with weights >= 0 on mesh points is between 0 and V |W(k)|^2 (W the transform of the window), which is the power of objects all at one point; objects of equal weight on every mesh point have no power.", "quantifier": "all meshes, boxes, windows, catalogs on mesh points", "why_tests_cant": "all configurations cannot be tried", "anchors": ["nbodykit/source/mesh/catalog.py:CatalogMesh.to_real_field", "nbodykit/algorithms/fftpower.py:FFTBase._compute_3d_power"]}
{"id": "C315", "title": "Projected power is a slice of the 3-d power", "statement": "ProjectedFFTPower on one or two axes (in any order, the last one with an even number of cells) has bins from kmin in steps dk up to pi times the least number of cells over the greatest length of the axes; every bin has as modes the number of modes of the full transform without a component along the other axes in the bin, as k the mean of |k| over them, and as power the mean of the 3-d power over them divided by the length of the box along the other axes, real for one source; bins without modes have no value.", "quantifier": "all meshes, boxes, axes, fields, dk > 0, kmin", "why_tests_cant": "tests take one source and compare with nothing", "anchors": ["nbodykit/algorithms/fftpower.py:ProjectedFFTPower.__init__", "nbodykit/algorithms/fftpower.py:ProjectedFFTPower.run", "nbodykit/algorithms/fftpower.py:FFTBase._compute_3d_power"]}
{"id": "C316", "title": "Projected power sees the averaged fields only", "statement": "ProjectedFFTPower does not change when the fields change without changing their average along the other axes, when both are moved periodically by the same number of cells, or when constants are added.", "quantifier": "all meshes, axes (even or odd), pairs of fields", "why_tests_cant": "tests use one field", "anchors": ["nbodykit/algorithms/fftpower.py:ProjectedFFTPower.run"]}
{"id": "C317", "title": "Projected power is bounded by the variance", "statement": "The sum of modes times power over the bins of ProjectedFFTPower of one source is at most the area of the projection times the variance of the averaged field.", "quantifier": "all meshes, boxes, axes, fields, dk, kmin", "why_tests_cant": "all fields cannot be tried", "anchors": ["nbodykit/algorithms/fftpower.py:ProjectedFFTPower.run"]}
{"id": "C318", "title": "The order of the axes does not matter", "statement": "ProjectedFFTPower on axes (a, b) and (b, a) has the same edges, k, modes and real part of the power.", "quantifier": "all meshes with even numbers of cells on both axes, boxes, fields", "why_tests_cant": "tests use one order", "anchors": ["nbodykit/algorithms/fftpower.py:ProjectedFFTPower.run"]}
{"id": "C319", "title": "One axis as documented", "statement": "ProjectedFFTPower accepts axes=(0), the documented way to project onto one axis.", "quantifier": "all axes", "why_tests_cant": "tests use a list", "anchors": ["nbodykit/algorithms/fftpower.py:ProjectedFFTPower.__init__"]}
{"id": "C320", "title": "The zero mode is left out", "statement": "The power in a bin of ProjectedFFTPower that holds the zero mode, whose power was set to zero, is the mean power of the other modes of the bin.", "quantifier": "all meshes, fields", "why_tests_cant": "tests do not look at the first bin", "anchors": ["nbodykit/algorithms/fftpower.py:ProjectedFFTPower.run"]}
{"id": "C321", "title": "Shot noise of the projected power", "statement": "Over all placements of weighted objects on mesh points (whole mass in the nearest cell) the power in every bin of ProjectedFFTPower with kmin > 0 that has modes is on average attrs shotnoise divided by the length of the box along the other axes.", "quantifier": "all meshes, boxes, axes, numbers of objects, weights, selections, ranks, chunks", "why_tests_cant": "random placements can be sampled only", "anchors": ["nbodykit/algorithms/fftpower.py:ProjectedFFTPower.run", "nbodykit/source/mesh/catalog.py:CatalogMesh.to_real_field", "nbodykit/algorithms/fftpower.py:FFTBase._compute_3d_power"]}
{"id": "C322", "title": "Saved results are read back", "statement": "The statistic of the three-point function has for every multipole its values on the bins r1, r2, centred between the edges. Results of SimulationBox3PCF and SurveyData3PCF, ProjectedFFTPower, ConvolvedFFTPower and RedshiftHistogram (with bins as arrays) written by save and read by load have on every rank the same attrs and the same bins, centres, values and meta-data; to_pkmu of a convolved power is that of the one saved.", "quantifier": "all results, bins, multipoles, numbers of ranks", "why_tests_cant": "tests read one file on the ranks they have", "anchors": ["nbodykit/algorithms/threeptcf.py:Base3PCF._run", "nbodykit/algorithms/threeptcf.py:Base3PCF.__getstate__", "nbodykit/algorithms/threeptcf.py:Base3PCF.__setstate__", "nbodykit/algorithms/threeptcf.py:Base3PCF.load", "nbodykit/algorithms/fftpower.py:ProjectedFFTPower.__getstate__", "nbodykit/algorithms/fftpower.py:ProjectedFFTPower.__setstate__", "nbodykit/algorithms/convpower/fkp.py:ConvolvedFFTPower.__getstate__", "nbodykit/algorithms/convpower/fkp.py:ConvolvedFFTPower.__setstate__", "nbodykit/algorithms/convpower/fkp.py:ConvolvedFFTPower.load", "nbodykit/algorithms/zhist.py:RedshiftHistogram.__getstate__", "nbodykit/algorithms/zhist.py:RedshiftHistogram.__setstate__", "nbodykit/algorithms/zhist.py:RedshiftHistogram.load", "nbodykit/binned_statistic.py:BinnedStatistic.from_state"]}
{"id": "C323", "title": "Bins of the three-point function may be a list", "statement": "The edges of SimulationBox3PCF and SurveyData3PCF, documented as array_like, may be a list.", "quantifier": "all edges", "why_tests_cant": "tests pass arrays", "anchors": ["nbodykit/algorithms/threeptcf.py:Base3PCF._run", "nbodykit/binned_statistic.py:BinnedStatistic.__init__"]}
{"id": "C324", "title": "Bins of the redshift histogram may be a list", "statement": "The bins of RedshiftHistogram, documented as a sequence of scalars, may be a list.", "quantifier": "all bins", "why_tests_cant": "tests pass arrays or numbers", "anchors": ["nbodykit/algorithms/zhist.py:RedshiftHistogram.run"]}
{"id": "C325", "title": "Angular bins may be a list", "statement": "The mu_edges of ConvolvedFFTPower.to_pkmu, documented as array_like, may be a list.", "quantifier": "all edges", "why_tests_cant": "tests pass arrays", "anchors": ["nbodykit/algorithms/convpower/fkp.py:ConvolvedFFTPower.to_pkmu", "nbodykit/binned_statistic.py:BinnedStatistic.__init__"]}
{"id": "C326", "title": "Unknown formats are refused", "statement": "ConvolvedFFTPower.load with a format that it does not know fails or gives the saved result.", "quantifier": "all formats", "why_tests_cant": "tests use the known formats", "anchors": ["nbodykit/algorithms/convpower/fkp.py:ConvolvedFFTPower.load"]}
{"id": "C327", "title": "Files of old versions", "statement": "ConvolvedFFTPower.load with format 'pre000305' reads files with edges, poles and attrs as they are, with the dimension k, bins centred between the edges and modes to be summed when bins are joined; such files are refused by the current format, and files of the current format are refused with KeyError by the old one.", "quantifier": "all files of both formats, ranks", "why_tests_cant": "there are few old files", "anchors": ["nbodykit/algorithms/convpower/fkp.py:ConvolvedFFTPower.__setstate_pre000305__", "nbodykit/algorithms/convpower/fkp.py:ConvolvedFFTPower.load", "nbodykit/algorithms/convpower/fkp.py:ConvolvedFFTPower.__setstate__"]}
{"id": "C328", "title": "Columns of text files", "statement": "CSVFile is opened exactly when no refused keyword is given, the first line has as many fields as there are names, the names and the used columns are distinct, the used columns are among the names, and the fields of these columns in the first ten rows (or in nrows, if given) are numbers; otherwise it raises ValueError. Its columns are those of usecols in their order, else all names; a column has the type asked for by dtype, else it is of integers when the fields of those first rows all are, else of floats. With the engine 'c', when the skipped lines begin in the first block and every field is of the type of its column, the size is the number of rows, and reading any columns in any order over any slice gives for each row the field in the column of that name as a value of the type of the column, nothing being nan.", "quantifier": "all files of the kind of C27, names, types, usecols, block sizes, limits, columns, slices", "why_tests_cant": "tests read a few random tables of floats", "anchors": ["nbodykit/io/csv.py:verify_data", "nbodykit/io/csv.py:CSVFile.__init__", "nbodykit/io/csv.py:CSVFile.read", "nbodykit/io/csv.py:CSVPartition.value"]}
{"id": "C329", "title": "Types found from the first rows", "statement": "A text file of numbers that is opened without dtype can be read.", "quantifier": "all files of numbers", "why_tests_cant": "tests use columns of one kind", "anchors": ["nbodykit/io/csv.py:verify_data", "nbodykit/io/csv.py:CSVFile.__init__"]}
{"id": "C330", "title": "Types with other engines", "statement": "What is read from a text file has the types of the dtype of the file, with any engine.", "quantifier": "all engines", "why_tests_cant": "tests use the default engine", "anchors": ["nbodykit/io/csv.py:CSVFile.__init__", "nbodykit/io/csv.py:CSVFile.read"]}
{"id": "C331", "title": "Skipped lines need not be rows", "statement": "Lines skipped by skiprows may contain anything, wherever blocks end.", "quantifier": "all files and block sizes", "why_tests_cant": "tests use large blocks", "anchors": ["nbodykit/io/csv.py:make_partitions", "nbodykit/io/csv.py:CSVPartition.value"]}
{"id": "C332", "title": "The signature of before 0.2.6", "statement": "Cosmology with keywords all named as before version 0.2.6 (H0, Om0, Ob0, Ode0, w0, Tcmb0, Neff, m_nu, flat) is the cosmology of the astropy object with these parameters, those not given having the defaults of that time: h is H0/100, the cold dark matter is Om0 - Ob0, the curvature is that of the object, the massive neutrinos are the positive masses in descending order and the massless ones make up Neff, and the dark energy is a fluid with w0 unless w0 is -1. Such names together with any other names or positional arguments raise ValueError.", "quantifier": "all keywords, values, orders; baryons positive and at most the matter, at most three massive neutrinos", "why_tests_cant": "tests use two sets of parameters", "anchors": ["nbodykit/cosmology/cosmology.py:check_deprecated_init", "nbodykit/cosmology/cosmology.py:Cosmology.__init__", "nbodykit/cosmology/cosmology.py:astropy_to_dict"]}
{"id": "C333", "title": "Documented defaults with old names", "statement": "Parameters of Cosmology that the old names do not mention have their documented defaults.", "quantifier": "all old names", "why_tests_cant": "tests do not look at them", "anchors": ["nbodykit/cosmology/cosmology.py:check_deprecated_init", "nbodykit/cosmology/cosmology.py:Cosmology.__init__"]}
{"id": "C334", "title": "Cosmologies of astropy objects", "statement": "Cosmology.from_astropy of an object with baryons and at most three massive neutrinos exists; every parameter has the value of the keyword, else the value found in the object, when no other name of the same quantity is given; the massive neutrinos are those of the object in descending order. A keyword that is another name of a quantity found in the object or given by another keyword raises ValueError.", "quantifier": "all objects of the six classes, keywords", "why_tests_cant": "tests use four objects", "anchors": ["nbodykit/cosmology/cosmology.py:Cosmology.from_astropy", "nbodykit/cosmology/cosmology.py:astropy_to_dict"]}
{"id": "C335", "title": "Keywords in conflict with the astropy object", "statement": "As documented, from_astropy refuses keywords in conflict with the parameters of the object.", "quantifier": "all objects, keywords", "why_tests_cant": "tests pass keywords of other quantities", "anchors": ["nbodykit/cosmology/cosmology.py:Cosmology.from_astropy"]}
{"id": "C336", "title": "Cosmologies are immutable", "statement": "In every program that makes, clones and lists cosmologies, makes them from dictionaries and edits dictionaries of its own, but not a dictionary after it was given to from_dict, every cosmology keeps the parameters its engine was made with.", "quantifier": "all programs", "why_tests_cant": "all histories cannot be run", "anchors": ["nbodykit/cosmology/cosmology.py:Cosmology.from_dict", "nbodykit/cosmology/cosmology.py:Cosmology.__setstate__", "nbodykit/cosmology/cosmology.py:Cosmology.__iter__", "nbodykit/cosmology/cosmology.py:Cosmology.clone", "nbodykit/cosmology/cosmology.py:Cosmology.__init__"]}
{"id": "C337", "title": "Dictionaries given to from_dict", "statement": "A cosmology made by from_dict does not change when the caller changes the dictionary later.", "quantifier": "all programs", "why_tests_cant": "tests do not change it", "anchors": ["nbodykit/cosmology/cosmology.py:Cosmology.from_dict", "nbodykit/cosmology/cosmology.py:Cosmology.__setstate__"]}
{"id": "C338", "title": "A loop over iterate may be left early", "statement": "A loop over TaskManager.iterate that a group leaves before its end (break) lets the with block end on all ranks.", "quantifier": "all numbers of groups and tasks, schedules", "why_tests_cant": "message schedules are not enumerable by tests", "anchors": ["nbodykit/batch.py:TaskManager.iterate", "nbodykit/batch.py:TaskManager._get_tasks", "nbodykit/batch.py:TaskManager.__exit__"]}
{"id": "C339", "title": "What leaving early does", "statement": "When a group leaves the loop over TaskManager.iterate in a task, the root never ends its loop, whatever the order of the messages, and every execution is finite; as long as no group leaves, executions are those of C09.", "quantifier": "all numbers of groups and tasks, sizes of groups, schedules", "why_tests_cant": "message schedules are not enumerable by tests", "anchors": ["nbodykit/batch.py:TaskManager.iterate", "nbodykit/batch.py:TaskManager._distribute_tasks", "nbodykit/batch.py:TaskManager._get_tasks"]}
{"id": "C340", "title": "Meshes of another size, previews, and fields of views", "statement": "compute(mode, Nmesh) gives, on the mesh of Nmesh (the source's own if not given), the field of the source with all functions applied once, in order, at the resolution of the source, and resampled only if Nmesh differs from it. preview(Nmesh) gathers, at that Nmesh, the field of the source before any function. to_real_field of a catalog mesh is its normalized or raw field as asked; that of a view is the normalized one.", "quantifier": "all programs making meshes and views, all Nmesh, functions and fields", "why_tests_cant": "programs with views and functions cannot be enumerated", "anchors": ["nbodykit/base/mesh.py:MeshSource.compute", "nbodykit/base/mesh.py:MeshSource._paint_XXX", "nbodykit/base/mesh.py:MeshSource.preview", "nbodykit/base/mesh.py:MeshSource.to_real_field", "nbodykit/base/mesh.py:MeshSource.to_field", "nbodykit/base/mesh.py:MeshSource.view", "nbodykit/source/mesh/field.py:FieldMesh"]}
{"id": "C341", "title": "attrs['Nmesh'] of the field", "statement": "The entry Nmesh in the attrs of the field of compute(Nmesh=...) is the Nmesh of the field.", "quantifier": "all sources, Nmesh", "why_tests_cant": "tests do not look at attrs of resampled fields", "anchors": ["nbodykit/base/mesh.py:MeshSource.compute"]}
{"id": "C342", "title": "normalize=False of a view", "statement": "to_real_field(normalize=False) of a view is that of the mesh viewed.", "quantifier": "all catalog meshes", "why_tests_cant": "tests do not call it for views", "anchors": ["nbodykit/base/mesh.py:MeshSource.to_real_field", "nbodykit/base/mesh.py:MeshSource.view"]}
{"id": "C343", "title": "Arguments of SimulationBoxPairCount", "statement": "For catalogs of one communicator whose attrs['BoxSize'], if any, has three sides, SimulationBoxPairCount is made exactly when both have the columns, a box is given (by keyword, as a number, one or three numbers, or by the attrs of the first catalog) that is not all zero and agrees with both attrs when both have it, the edges are positive, Nmu is given for mode 2d only and always, pimax of at least 1 for mode projected only and always, and for periodic non-angular counts no edge nor pimax exceeds half of a side. The box used is that one. Otherwise ValueError is raised; catalogs of different communicators raise AssertionError.", "quantifier": "all catalogs, modes, edges, boxes, numbers", "why_tests_cant": "tests try a few wrong arguments", "anchors": ["nbodykit/algorithms/pair_counters/base.py:verify_input_sources", "nbodykit/algorithms/pair_counters/base.py:PairCountBase.__init__", "nbodykit/algorithms/pair_counters/simbox.py:SimulationBoxPairCount.__init__"]}
{"id": "C344", "title": "Catalogs of another box", "statement": "A catalog whose attrs['BoxSize'] is not the box in use is refused.", "quantifier": "all pairs of catalogs and boxes", "why_tests_cant": "tests give both catalogs the same box", "anchors": ["nbodykit/algorithms/pair_counters/base.py:verify_input_sources", "nbodykit/algorithms/pair_counters/simbox.py:SimulationBoxPairCount.__init__"]}
{"id": "C345", "title": "BoxSize in attrs as a number", "statement": "A catalog whose attrs['BoxSize'] is a number can be counted like one with three equal sides.", "quantifier": "all catalogs", "why_tests_cant": "tests use catalogs that store three sides", "anchors": ["nbodykit/algorithms/pair_counters/base.py:verify_input_sources", "nbodykit/algorithms/pair_counters/simbox.py:SimulationBoxPairCount.__init__"]}
{"id": "C346", "title": "BoxSize of the second catalog", "statement": "BoxSize in the attrs of either catalog is enough.", "quantifier": "all pairs of catalogs", "why_tests_cant": "tests use catalogs that both have it", "anchors": ["nbodykit/algorithms/pair_counters/base.py:verify_input_sources", "nbodykit/algorithms/pair_counters/simbox.py:SimulationBoxPairCount.__init__"]}
{"id": "C347", "title": "Seeds and meta-data of lognormal catalogs", "statement": "LogNormalCatalog is made exactly when cosmology and redshift are given by keyword or by Plin and there are objects, ValueError otherwise. All ranks use one seed, the given one or the one drawn by rank 0, and one cosmo_seed, the given one or the seed; the cosmology and redshift used are those of the keywords, else of Plin. attrs of every rank have these seeds, the redshift and the other arguments, and 'cosmo' of Plin.attrs, or of the cosmology used if Plin has no attrs. Making it again with the recorded seeds gives the same catalog.", "quantifier": "all spectra, arguments, numbers of ranks, random numbers", "why_tests_cant": "random seeds and numbers of ranks cannot be enumerated", "anchors": ["nbodykit/source/catalog/lognormal.py:LogNormalCatalog.__init__"]}
{"id": "C348", "title": "attrs['cosmo'] of lognormal catalogs", "statement": "attrs['cosmo'] of a LogNormalCatalog is the cosmology used for it.", "quantifier": "all spectra and cosmologies", "why_tests_cant": "tests do not give another cosmology", "anchors": ["nbodykit/source/catalog/lognormal.py:LogNormalCatalog.__init__"]}
{"id": "C349", "title": "Field and meta-data of linear meshes", "statement": "In every program that makes LinearPower objects and meshes and sets redshift and sigma8, the field of a LinearMesh is the one of the current spectrum with one seed on all ranks (the given one or the one drawn by rank 0) and the given switches (remove_variance before unitary_amplitude); its attrs have this seed and these switches, and as plin.* the attrs of the spectrum at the time the mesh was made, the spectrum of the field if it was not changed since.", "quantifier": "all programs, arguments, numbers of ranks, random numbers", "why_tests_cant": "histories cannot be enumerated", "anchors": ["nbodykit/source/mesh/linear.py:LinearMesh.__init__", "nbodykit/source/mesh/linear.py:LinearMesh.to_complex_field", "nbodykit/utils.py:attrs_to_dict", "nbodykit/cosmology/power/linear.py:LinearPower.attrs"]}
{"id": "C350", "title": "attrs of a linear mesh tell its spectrum", "statement": "The redshift in the attrs of the field of a LinearMesh is that of the spectrum of the field.", "quantifier": "all programs", "why_tests_cant": "tests do not change the spectrum", "anchors": ["nbodykit/source/mesh/linear.py:LinearMesh.__init__", "nbodykit/source/mesh/linear.py:LinearMesh.to_complex_field"]}
{"id": "C351", "title": "Repeated run() of correlation functions", "statement": "With analytic randoms run() gives the natural estimate of all objects (one catalog given twice counts as one), in angular mode of those nearer to the centre of the box than half of every side (as two catalogs if two are given), and every further run() the same result. With randoms the first run() counts data, data with randoms (of the first sample if there are no second ones) and randoms, unless a pair counter is given for the latter, and gives the estimate of C193; a further run() raises AttributeError and leaves all as it is.", "quantifier": "all catalogs, pair counters, numbers of runs; boxes with three positive sides in attrs in angular mode", "why_tests_cant": "histories cannot be enumerated", "anchors": ["nbodykit/algorithms/paircount_tpcf/tpcf.py:BasePairCount2PCF.__init__", "nbodykit/algorithms/paircount_tpcf/tpcf.py:BasePairCount2PCF.run", "nbodykit/algorithms/paircount_tpcf/tpcf.py:SimulationBox2PCF.run", "nbodykit/algorithms/paircount_tpcf/tpcf.py:SurveyData2PCF.run", "nbodykit/algorithms/paircount_tpcf/tpcf.py:_restrict_to_spherical_volume"]}
{"id": "C352", "title": "Correlation functions can be run again", "statement": "run() of a correlation function with randoms can be called again.", "quantifier": "all objects", "why_tests_cant": "tests run once", "anchors": ["nbodykit/algorithms/paircount_tpcf/tpcf.py:BasePairCount2PCF.run", "nbodykit/algorithms/paircount_tpcf/estimators.py:LandySzalayEstimator"]}
{"id": "C353", "title": "BoxSize as keyword in angular mode", "statement": "SimulationBox2PCF takes the BoxSize of the keyword in all modes.", "quantifier": "all modes and catalogs", "why_tests_cant": "tests have BoxSize in attrs", "anchors": ["nbodykit/algorithms/paircount_tpcf/tpcf.py:BasePairCount2PCF.run", "nbodykit/algorithms/paircount_tpcf/tpcf.py:_restrict_to_spherical_volume"]}
{"id": "C354", "title": "A catalog with itself", "statement": "SimulationBox2PCF with data2 = data1 is the one without data2 in all modes.", "quantifier": "all catalogs and weights", "why_tests_cant": "tests do not give a catalog twice", "anchors": ["nbodykit/algorithms/paircount_tpcf/tpcf.py:BasePairCount2PCF.run", "nbodykit/algorithms/pair_counters/base.py:PairCountBase.__init__"]}
{"id": "C355", "title": "Arguments of SurveyDataPairCount and SurveyData3PCF", "statement": "For catalogs of one communicator (AssertionError otherwise) SurveyDataPairCount passes its checks exactly when every catalog has the columns of right ascension, declination and weight and, unless the mode is angular, the redshift, the edges are positive, Nmu is given exactly for '2d' and pimax (at least 1) exactly for 'projected', and a cosmology is given unless the mode is angular; SurveyData3PCF does exactly when the catalog has the four columns, there are edges and a cosmology is given. Otherwise both raise ValueError.", "quantifier": "all catalogs, modes, edges, column names", "why_tests_cant": "tests try a few wrong arguments", "anchors": ["nbodykit/algorithms/pair_counters/mocksurvey.py:SurveyDataPairCount.__init__", "nbodykit/algorithms/threeptcf.py:SurveyData3PCF.__init__", "nbodykit/algorithms/pair_counters/base.py:verify_input_sources"]}
{"id": "C356", "title": "Arguments of SimulationBox3PCF", "statement": "For a catalog whose attrs['BoxSize'], if any, has three sides, SimulationBox3PCF is made exactly when the catalog has the two columns, there are edges, a box that is not all zero is given by keyword or attrs, both agreeing if both are given, and, if periodic, no edge is larger than half of a side; neighbours are then searched in that box if periodic and without a box otherwise. In all other cases it raises ValueError.", "quantifier": "all catalogs, edges, boxes", "why_tests_cant": "tests try one too large edge", "anchors": ["nbodykit/algorithms/threeptcf.py:SimulationBox3PCF.__init__", "nbodykit/algorithms/threeptcf.py:Base3PCF.__init__"]}
{"id": "C357", "title": "Arguments of CylindricalGroups", "statement": "CylindricalGroups accepts exactly the catalogs with Position and the columns ranked by (none, one name or a list), with a box (attrs['BoxSize'], else the keyword) of one or three numbers, which may be missing if not periodic, and a line of sight that is missing or a vector of three numbers with length one up to the tolerance; ValueError otherwise. When groups are found, a catalog without column 'origind' shows the same columns as before.", "quantifier": "all catalogs, columns, boxes, lines of sight", "why_tests_cant": "tests try a few wrong arguments", "anchors": ["nbodykit/algorithms/cgm.py:CylindricalGroups.__init__", "nbodykit/algorithms/cgm.py:CylindricalGroups.run"]}
{"id": "C358", "title": "BoxSize keyword of CylindricalGroups", "statement": "The keyword BoxSize of CylindricalGroups, if given, is the box used.", "quantifier": "all catalogs", "why_tests_cant": "tests give one of the two", "anchors": ["nbodykit/algorithms/cgm.py:CylindricalGroups.__init__"]}
{"id": "C359", "title": "CylindricalGroups leaves its source alone", "statement": "The source of CylindricalGroups has the same columns afterwards as before.", "quantifier": "all catalogs", "why_tests_cant": "tests do not have a column of this name", "anchors": ["nbodykit/algorithms/cgm.py:CylindricalGroups.run"]}
{"id": "C360", "title": "Automatic bins follow Scott's rule", "statement": "The width of the automatic bins of RedshiftHistogram is h with h^3 = sigma^3 24 sqrt(pi)/n, sigma the standard deviation of the n redshifts of all ranks; unless all redshifts are equal it is positive, the bins start at the lowest redshift, the highest one is in (or at the end of) the last bin, and the number N + 1 of bins satisfies N^6 (24 sqrt(pi))^2 < 8 n^5. The bins do not depend on the order of the objects and their distribution over the ranks (all with objects).", "quantifier": "all redshifts and distributions", "why_tests_cant": "tests use one sample on the ranks they have", "anchors": ["nbodykit/algorithms/zhist.py:scotts_bin_width"]}
{"id": "C361", "title": "Automatic bins of equal redshifts", "statement": "The automatic bins have a positive width and hold an object.", "quantifier": "all samples", "why_tests_cant": "tests use random redshifts", "anchors": ["nbodykit/algorithms/zhist.py:scotts_bin_width", "nbodykit/algorithms/zhist.py:RedshiftHistogram.run"]}
{"id": "C362", "title": "Which tasks can be handed out", "statement": "For a list, tuple, range or array of tasks the root answers the n-th request with the n-th task and its number, and with the end when there are no more. Generators give TypeError, sets and dictionary views TypeError, dictionaries without the key 0 KeyError.", "quantifier": "all tasks, numbers of requests", "why_tests_cant": "tests use lists", "anchors": ["nbodykit/batch.py:TaskManager._distribute_tasks", "nbodykit/batch.py:TaskManager.iterate", "nbodykit/batch.py:TaskManager.map"]}
{"id": "C363", "title": "Tasks may be any iterable", "statement": "As documented, tasks of TaskManager.iterate may be any iterable, and its items are handed out.", "quantifier": "all iterables", "why_tests_cant": "tests use lists", "anchors": ["nbodykit/batch.py:TaskManager.iterate", "nbodykit/batch.py:TaskManager._distribute_tasks"]}
{"id": "C364", "title": "Initial condition in radiation domination", "statement": "In a universe of radiation with little matter (E ~ 1/a^2, Omega_m ~ a) the initial values of RadiationDominated as a function of the time of the start obey the first and second order growth equations that are solved, up to the pull of the growth factor itself (the terms 3/2 Omega_m D1 and 3/2 Omega_m D2); the source of second order is kept.", "quantifier": "all densities and times of the start", "why_tests_cant": "tests compare a few values of one cosmology", "anchors": ["nbodykit/cosmology/background.py:RadiationDominated.get_initial_condition", "nbodykit/cosmology/background.py:Perturbation.ode"]}
{"id": "C365", "title": "Growth factors are positive", "statement": "The linear growth factor Gp of RadiationDominated is positive at all scale factors.", "quantifier": "all cosmologies and scale factors", "why_tests_cant": "tests use late times", "anchors": ["nbodykit/cosmology/background.py:RadiationDominated.get_initial_condition", "nbodykit/cosmology/background.py:Perturbation.__init__", "nbodykit/cosmology/background.py:Perturbation.Gp"]}
{"id": "C366", "title": "Attributes of a cosmology", "statement": "In every program that reads and sets attributes of a Cosmology (other than engine, delegates, dro, dro_dict) every result is the one of a cosmology that has one object of each of the seven interfaces, all made with its engine, from the start. In particular a name of the interfaces (not one of Cosmology itself) gives in all the program the attribute of one object of the first interface in the order of delegates that has it, and setting it raises ValueError.", "quantifier": "all programs, all sets of names of the interfaces", "why_tests_cant": "histories of lazily made objects cannot be enumerated", "anchors": ["nbodykit/cosmology/cosmology.py:Cosmology.__getattr__", "nbodykit/cosmology/cosmology.py:Cosmology.__setattr__", "nbodykit/cosmology/cosmology.py:Cosmology.__setstate__", "nbodykit/cosmology/cosmology.py:Cosmology.sigma8", "nbodykit/cosmology/cosmology.py:Cosmology.Omega0_cb"]}
{"id": "C367", "title": "Setting attributes does not change a cosmology", "statement": "As documented, a Cosmology is immutable: sigma8 is the same whatever attributes were set.", "quantifier": "all programs", "why_tests_cant": "tests set a parameter", "anchors": ["nbodykit/cosmology/cosmology.py:Cosmology.__setattr__", "nbodykit/cosmology/cosmology.py:Cosmology.__getattr__", "nbodykit/cosmology/cosmology.py:Cosmology.sigma8"]}
{"id": "C368", "title": "replacesorted", "statement": "For a sorted array s and b of the same length, replacesorted(arr, s, b) replaces every element of arr that is in s by the element of b at the same place (of the first one if there are several) and leaves all others as they are; with out=arr, as FOF calls it, the result is the same.", "quantifier": "all arrays of whole numbers", "why_tests_cant": "tests use a few arrays", "anchors": ["nbodykit/algorithms/fof.py:replacesorted"]}
{"id": "C369", "title": "Output array of replacesorted", "statement": "replacesorted(arr, s, b, out=o) puts into o the array that it returns without out.", "quantifier": "all arrays", "why_tests_cant": "only called with out=arr", "anchors": ["nbodykit/algorithms/fof.py:replacesorted"]}
