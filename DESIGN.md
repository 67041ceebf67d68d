# Formal model of nbodykit: design

Object of study: `bccp/nbodykit` (the sources in `/repo`, read as text, never run).
Technique: an executable Gallina model of the functions named below, one Coq
definition per Python function or loop, with theorems proved for all inputs,
histories and schedules.  Coq 8.16.1; only its standard library is used.

## Layout

For every area `X` there are in `rocq/theories`:

* `XModel.v`   the model; each definition cites the file and lines it models and says where it simplifies;
* `XSpec.v`    a small independent specification: what the user expects, not using the model's helpers, and the contracts of external code;
* `XProofs.v` and further files (`XMore.v`, `XMain.v`, ...)  lemmas;
* `XProps.v`   nothing but the property theorems, with a `Print Assumptions` under each, and `Example`s showing that a concrete non-trivial case meets the hypotheses.

`Base.v` holds the shared vocabulary: results with exceptions (`res`), Python
slices, rank distributions (a distributed array is a `list (list A)`, one inner
list per rank; its meaning is its concatenation in rank order).  `Num.v` holds sums
over exact rationals.

| area | modelled | not modelled |
|------|----------|--------------|
| Io | `io/tools.py`, `io/stack.py`, `io/binary.py`, row part of `io/base.py` | contents of bigfile, hdf, fits readers; open/close |
| Ranks | `utils.py` GatherArray, ScatterArray, FrontPadArray, get_data_bounds, unique_labels, bincount; `source/catalog/file.py`, `uniform.py`, `mpirng.py` | numpy dtypes except where a theorem is about them |
| Batch | `batch.py` split_ranks and the master/worker protocol | logging, profiling of tasks |
| Scope | `__init__.py` CurrentMPIComm, set_options | dask's own cache |
| Cat, Dist | `base/catalog.py` columns, views, copies, slices, attributes; gslice, sort, Index | dask laziness: a column is its rows |
| Paint, Mesh | `source/mesh/catalog.py`, `source/mesh/species.py`, `base/mesh.py` painting, actions, modes | pmesh's window functions (argument `kern`), resampling, interlacing phase |
| Bin | `binned_statistic.py` | JSON parts (Json), printing |
| Da | `utils.py` LinearTopology, DistributedArray | trailing dimensions |
| Fof | `algorithms/fof.py` labels, merge, count, centre of mass, catalog | kdcount and pmesh decomposition (contracts) |
| Pair | `pair_counters/{base,domain,simbox}.py`, `corrfunc/base.py`, `utils.split_size_3d` | Corrfunc (contract); survey geometry except the shared base |
| Rand | `paircount_tpcf/estimators.py` filling factors and estimators, over `Reals` | |
| Cosmo | `cosmology/cosmology.py` argument handling, clone, to/from astropy | CLASS |
| Names | `source/catalog/species.py`, `halos.py`, `io/hdf.py` names | halotools |
| Survey | `zhist.py`, `convpower/{catalog,fkp}.py` box and weights, `fftrecon.py`, `mockmaker.py` Poisson sampling | the multipole sums (Conv) |
| Csv | `io/csv.py` partitions | pandas' parsing of one line |
| Json | `utils.py` JSONEncoder, JSONDecoder | the text: json.dumps/loads exchange trees |
| Fiber | `fibercollisions.py` | |
| Cgm | `cgm.py` | |
| Pow | `fftpower.py` project_to_basis and users, `meshtools.py`, `fftcorr.py`, ProjectedFFTPower | the FFT itself (fields are arguments), `_find_unique_edges` |
| Three | `threeptcf.py` Base3PCF._run, over `Reals` | SurveyData3PCF's coordinates |
| Ylm | `fkp.py` get_real_Ylm, `threeptcf.py` YlmCache._get_Ylm, over `Reals` | sympy's simplification and code generation, the cache of powers |
| Conv | `fkp.py` ConvolvedFFTPower._compute_multipoles, to_pkmu, over `Reals` | painting the meshes (Fkp), the binning of k into the last half open bin by numpy's digitize on floats |
| Sky | `transform.py` coordinates, VectorProjection, StackColumns, ConcatenateSources, over `Reals` | frames other than icrs, halo fitting formulas, chunks of dask arrays |
| Kd | `kdtree.py` KDDensity, over `Reals` | the tree itself |
| Mock | `mockmaker.py` Gaussian fields, lognormal transform, expected counts; `source/mesh/linear.py`; `source/catalog/lognormal.py` _makesource; `filters.py`, over `Reals` | generation of white noise, storage of half of the modes |
| Spc | `algorithms/pair_counters/mocksurvey.py`, `domain.py` decompose_survey_data and get_cartesian, `corrfunc/mocks.py`, angular mode of `simbox.py`, argument checks of `base.py`, over `Reals` | GridND and Corrfunc; catalogs lying in a coordinate plane (a grid of zero width) |
| Tpcf | `algorithms/paircount_tpcf/tpcf.py` (run, wp, saving), `estimators.py` to_poles and LandySzalayEstimator, `pair_counters/base.py` __setstate__ | the pair counter and NaturalEstimator (arguments; C36, C37, C98, C187), JSON (identity), `scipy.special.legendre` by its recurrence |
| Lin | `cosmology/power/*.py`, `CorrelationFunction` in `cosmology/correlation.py`, over `Reals` | CLASS, mcfit, quad, splines (arguments); the full integrals of ZeldovichPower |
| Gad | `io/gadget.py`, `io/tpm.py`, `io/fits.py` (choice of the HDU), names in `BinaryFile.read` | other header types than the default; fitsio; conversion of types; 64-bit integers of numpy taken as unbounded |
| Hal | `source/catalog/halos.py` populate and repopulate, `hod.py` configuration | halotools (argument `fill`), other attributes, logging |
| Fld | `base/mesh.py` save and preview, `source/mesh/bigfile.py`, `source/mesh/array.py` | pmesh ravel/unravel, bigfile, irfftn (contracts); previews at lower resolution; integer arrays |
| Cmp | `source/mesh/catalog.py` compensation functions, over `Reals` | painting itself; two-dimensional meshes |
| Hdf | `io/hdf.py` HDFFile: `find_datasets`, columns, sizes, attributes, `read` (excluded names: Names) | h5py: file as list of data sets with paths; empty groups |
| View | `io/base.py` FileType `__getitem__` (column lists, one name, tuples), `asarray`, `get_dask` (row part: Io) | types as numbers, memory layout |
| Var | `binned_statistic.py` `__setitem__`, `rename_variable`, `squeeze()`, `to_json`, `from_json` (on Bin) | the JSON text (Json) |
| Txt | `binned_statistic.py` `from_plaintext`, `_Read1DPlainText`, `_Read2DPlainText`, on lines of characters | `float()`, `int()` and numpy types, `numpy.loadtxt` other than on rows of words |
| Uniq | `fftpower.py` `_find_unique_edges`, the bins in k of FFTPower, over `Reals` | gather order of ranks is the list of ranks |
| Fp | `fftpower.py` FFTBase (`__init__`, `_compute_3d_power`, state), `_cast_source`, FFTPower and FFTCorr results, shapes and state, over `Reals` | painted fields and `project_to_basis` (Binning groups) are arguments; masks (C69) |
| Dft | r2c and c2r of meshes, interlacing in `source/mesh/catalog.py` `to_real_field`, 3-d power and correlation of `fftpower.py` and `fftcorr.py`, over `Reals` | the distribution over ranks; two-dimensional meshes |
| Rec | `algorithms/fftrecon.py` `_compute_s` on the mesh, over `Reals` (schemes and line of sight: Survey) | readout at the particles |
| Tom | columns of classes (`base/catalog.py` `column`, `ColumnFinder`, `get_hardcolumn`), `to_mesh` of catalogs and of `MultipleSpeciesCatalog`, attrs of `CatalogMesh`, choice of the compensation | numbers other than integers in attrs; communicators; views |
| Fkp | `convpower/catalog.py` `FKPCatalog`, `catalogmesh.py` `FKPCatalogMesh`, meta-data, sources, box and normalisation of `fkp.py` `ConvolvedFFTPower`, over rationals with inf and nan | multipoles (Conv, Survey); saving; several ranks (columns are those of all ranks) |
| Hct | `fof.py` `to_halos`, `fof_catalog`; `source/catalog/halos.py` `HaloCatalog`: columns, selections, `to_halotools` | velocity dispersions, `populate` (Hod group), views; halotools' radius and concentration are arguments |
| Shn | the power of painted catalogs: Paint and Dft together, and the shot noise of `fftpower.py` `_compute_3d_power`, over `Reals` | positions between mesh points; interlacing; values |
| Prj | `fftpower.py` `ProjectedFFTPower` from the arguments to the bins, with Dft, over `Reals` | the field comes as the complex mesh and is turned back by `preview`; negative axes |
| Ser | `threeptcf.py` `Base3PCF` (end of `_run`, `__getstate__` to `load`), `fftpower.py` `ProjectedFFTPower` and `convpower/fkp.py` `ConvolvedFFTPower` `__getstate__` to `load`, end of `to_pkmu`, `zhist.py` end of `run`, `__getstate__` to `load`, `BinnedStatistic.__init__`, `from_state` | masks; JSON text (C26) |
| Cty | `io/csv.py` `verify_data`, `CSVFile.__init__`, `read` with the types of columns | text columns; tables with different types in different blocks |
| Dep | `cosmology/cosmology.py` `check_deprecated_init`, positional arguments, `from_astropy`, `from_dict`, dictionaries in memory | warnings, `from_file` (Ini) |
| Brk | `batch.py` leaving the loop over `iterate`, over Batch | exceptions in tasks (`os._exit`) |
| Prv | `base/mesh.py` `compute` with `Nmesh`, `preview`, `to_real_field` of views, over Mesh | `axes` of preview; meshes with sides of different `Nmesh` |
| Vis | `pair_counters/base.py` `verify_input_sources`, `PairCountBase.__init__`; `simbox.py` `SimulationBoxPairCount.__init__` up to `run` | types of columns; catalogs without `attrs` |
| Lnc | seeds, cosmology and attrs of `source/catalog/lognormal.py` `LogNormalCatalog.__init__`; `source/mesh/linear.py` `LinearMesh` with spectra that change | fields (Mock, Dft), `BoxSize` and `Nmesh` in attrs |
| Rer | `paircount_tpcf/tpcf.py` objects under repeated `run()`, over Tpcf | pair counters (Pair, Vis), `wp` (Tpcf) |
| Arg | arguments of `SurveyDataPairCount`, `SimulationBox3PCF`, `SurveyData3PCF`, `CylindricalGroups`; columns of the source of `CylindricalGroups` after `run` | views (columns of `base`); what runs between (Pair, Mock, Tri, Cgm) |
| Sct | `zhist.py` `scotts_bin_width`, over `Reals` | the histogram itself (Survey) |
| Itb | `batch.py` `_distribute_tasks` for lists, generators, sets and dictionaries | the messages (Batch) |
| Rad | `cosmology/background.py` `RadiationDominated.get_initial_condition`, over `Reals` | the solver (returns the initial values first) |
| Dlg | `cosmology/cosmology.py` `Cosmology.__getattr__`, `__setattr__`, `__setstate__`, its two properties | the classes of classylss (sets of names) |
| Rps | `algorithms/fof.py` `replacesorted` with its output array | arrays other than whole numbers |
| Slab | `meshtools.py` `MeshSlab`, `SlabIterator`, over `Reals` | printing |
| Grow | `cosmology/background.py`, `cosmology/linearnbody.py`, over `Reals` | odeint (contract), solve_ivp, Cosmology (functions of redshift) |
| Save | `base/catalog.py` save, `io/bigfile.py`, `source/catalog/array.py`, `source/catalog/subvolumes.py` | dataset prefixes, delayed writes, types of rows |

## Conventions

* Python exceptions are values (`Err e`).
* Python ints are `Z` (or `nat` for sizes and indices that the code keeps non-negative).
* Floats: wherever the property is about algebra (sums, means, weights), exact
  rationals `Qc` or, in Rand, Three, Ylm, Conv, Sky, Kd, Mock, Spc, Grow, Lin, Cmp, Slab, Uniq, Fp, Dft, Rec, Shn, Prj, Sct and Rad, `Reals` replace floats; rounding is outside the model.  Where the property
  is only about order, values come from any totally ordered type or `Z`; the sort models the IEEE bit pattern.
* MPI collectives are modelled by what MPI guarantees: a collective is a
  function of the list of the arguments of all ranks.  A collective that is not
  entered by all ranks is a deadlock and modelled as an error value.
* Loops that need not end take fuel; running out is an error value that the theorems exclude.
* External code (numpy, dask, pfft/pmesh, mpsort, kdcount, Corrfunc, h5py,
  bigfile, CLASS) appears only as functions passed in as arguments, or through
  the mathematical contract recorded below.
* A claim that is false of the code is kept as a property of its own with a theorem
  `..._refuted : exists ...`; the true part stays under its id with the hypotheses it needs.

## Trusted base

1. Coq's kernel (8.16.1) and the standard library.
2. What `Print Assumptions` prints under every theorem in the build.  All theorems are
   (listed in the table at the end)  `Closed under the global context` except C30_legendre, C191_legendre and those of Rand (C36, C99), Three (C32, C150, C151), Ylm (C152, C153), Conv (C154-C158), Sky (C159-C161), Kd (C166-C169), Mock (C178-C186), Spc (C187-C189), Grow (C200-C208), Lin (C209-C223), Cmp (C244, C245), Slab (C246), Uniq (C261-C266) Fp (C267-C273), Dft (C274-C278), Rec (C279-C282), Shn (C309-C314) and Prj (C315-C321), Sct (C360, C361), Rad (C364, C365),
   which use the real numbers of the standard library and list
   `ClassicalDedekindReals.sig_not_dec`, `ClassicalDedekindReals.sig_forall_dec` and
   `FunctionalExtensionality.functional_extensionality_dep`; C158-C160, C166-C169, C185, C188, C189 and some of C200-C223 also list `Classical_Prop.classic` (used by the standard library for derivatives and atan).
   (`coqchk` also lists `Coq.ssr.ssrunder.Under_rel.*`, opaque module fields that `lia`'s ZifyBool loads; no theorem depends on them.)
3. The reading of the Python sources into Gallina (cited line by line).
4. The contracts of external libraries:
   * mpsort: a stable sort of the concatenation, cut to the given sizes (`mpsort_out_contract`, shown satisfiable by `ref_sort_out`); numpy `argsort`, `searchsorted` (sorted edges), `digitize`, `bincount`, `ravel_multi_index` by their definitions;
   * kdcount: dense local labels of the connected components (Fof); all pairs within rmax, each once (Cgm, Three `enum_ok`);
   * pmesh: domain layout brings all objects within the smoothing length to a rank (`domain_contract`, `exchange_ok`, `decomposed`); painting adds `kern` of each particle once; r2c and c2r are inverse; index and Nyquist conventions of coordinates (`freq`);
   * halotools: the galaxies of a rank are a function of its halos, the parameters and the seed (`fill`); `RandomState(seed).randint` is a function of the seed (`rng`);
   * numpy.fft.irfftn with the shape of the field inverts the transform of pmesh up to the number of cells (`fft_ok`); pmesh ravel and unravel use the C order of the global array; bigfile concatenates the arrays of the ranks;
   * text: `float()` of a word that starts with '#' fails; `int()` of the digits written for a number is that number.
   * h5py slices `0 <= start <= stop <= size`, `step >= 1`; refuses field names on data sets without fields (ValueError); numpy calls a field with empty name `f0`;
   * dask `from_array` takes `x[a:b]` or `x[a:b, c:d]` for blocks of the given size along each axis and concatenates them;
   * `numpy.unique` with first indices, `numpy.arange` (exact), painting gives equal layouts of the fields on equal meshes;
   * pmesh transforms: r2c is the sum with exp(-ikx) and 1/Nmesh^3, c2r the plain sum over the stored modes and the conjugates of the others; the Nyquist wave number is negative.
   * pmesh: `ParticleMesh` spreads a scalar BoxSize over the dimensions and refuses other lengths with ValueError; `pmesh.window.methods` is a set of names (a parameter);
   * halotools: `UserSuppliedHaloCatalog` keeps its keywords; radius and concentration are functions of cosmology, redshift, definition and mass (Hct);
   * `Field.preview(axes=…)`: the field summed over the other axes, in the order given, on all ranks; `numpy.fft.rfftn`: its definition, half of the modes along the last axis.
   * astropy: an object has its constructor arguments as attributes; one mass is that of all floor(Neff) species; negative values,
     other numbers of masses and more baryons than matter raise ValueError; the curvature is an argument (`DepModel`);
   * pmesh `resample`: a function of both sizes and the field, and it commutes with `r2c` (Prv); `preview` without axes is a function of `Nmesh` and the field;
   * Corrfunc: counts and average weights of pairs per bin (`corr_contract`); square roots (`sqrt_contract`);
   * MPI allreduce: the sum over the ranks in some grouping;
   * CLASS: derived quantities are functions of the dictionary it is given; astropy: attributes are the constructor arguments;
   * h5py: membership of names; dask read_block / seek_delimiter, pandas read_csv on whole lines; the fields of a line and their kinds, the type pandas finds for a column and its conversion to a type asked for (Cty);
   * pandas sort_values, groupby, drop, join on unique indices (`by_desc_contract`);
   * json.dumps/loads: exact on JSON trees; numpy.array's discovery of shapes; astropy unit strings;
   * numpy random numbers: an arbitrary stream of draws;
   * scipy legendre: the Legendre polynomial; sympy: its simplification keeps the value of the expressions of the harmonics (Ylm);
   * FFT r2c: any linear map given by a kernel; interpolation corrections: real factors; scipy quad: exact on polynomials (Conv);
   * scipy interp1d: linear between the neighbours, ValueError out of range; cosmo.comoving_distance: a strictly increasing function (Sky);
   * GridND: every point of the box has a home rank; with smoothing s a rank gets, once each, at least the objects within s of its points, with smoothing 0 just its own (Spc, `grid_ok`);
   * Corrfunc: a pair is in a bin only if its separation is within the edges, angular bins depend on the angle only (Spc);
   * pmesh: wave numbers 2 pi f / L with f in [-n/2, n/2), white noise of a real field, c2r as the sum of plane waves, cmean over all ranks (Mock);
   * mcfit TophatVar and P2xi with splines: linear in the power on the grid (Lin, C209, C222); Cosmology.match gives the sigma8 asked for (C220);
   * numpy.fromfile and seek as in Io; little-endian machine (Gad, C224, C225); fitsio finds HDUs by number or name, case of names not considered (C226-C228);
   * scipy odeint: the values of a solution of the equations it is given (Grow, `solved`);
   * scipy cKDTree: distances to all points held, in increasing order, infinity beyond (Kd);
   * bigfile: blocks of fixed size written at an offset, attributes stored as strings or arrays of numbers; dask store: every chunk once, in any order (Save).

## Testing the theorems

`seeded/LOG.jsonl` records edits of the model that mimic realistic bugs, made in a scratch copy, with the theorems
that stopped proving and those that were tightened because they did not.


## Properties, theorems and the code they are about

Axioms, as `Print Assumptions` lists them for each theorem: - none; R1 `ClassicalDedekindReals.sig_not_dec`; R2 `ClassicalDedekindReals.sig_forall_dec`; FE `FunctionalExtensionality.functional_extensionality_dep`; CL `Classical_Prop.classic`.

Status "partial" marks claims that are false of the code (theorem `_refuted`) or proved in part (`_partial`).

| id | claim | code | theorems | axioms | status |
|----|-------|------|----------|--------|--------|
| C01 | A stack of files reads like one concatenated file | `io/stack.py:FileStack.read`, `io/tools.py:get_slice_size`, `io/tools.py:global_to_local_slice`, `io/tools.py:get_file_slice` | Io: stack_read, stack_past_end, stack_getitem_slice | - | proved |
| C02 | Array-like indexing of a file returns exactly the selected rows in order | `io/base.py:FileType.__getitem__`, `io/base.py:find_slice_chunks` | Io: mask, stack_is_reader, binary_is_reader, ints, int, slice | - | proved |
| C03 | Columns of a flat binary file never overlap and are read back row-exact | `io/binary.py:getsize`, `io/binary.py:BinaryFile._default_byte_offset`, `io/binary.py:BinaryFile.read` | Io: binary_read, getsize, getsize_exact, offset_is_column_start, columns_disjoint | - | proved |
| C04 | Scatter then gather is the identity and gather concatenates in rank order | `utils.py:GatherArray`, `utils.py:ScatterArray` | Ranks: gather_concatenates, gather_refuses_mismatch, scatter_even, scatter_counts, scatter_refuses_bad_counts, scatter_gather | - | proved |
| C05 | Front padding gives every rank exactly the preceding items | `utils.py:FrontPadArray` | Ranks: front_pad, front_too_large | - | proved |
| C06 | Rows of a file catalog are spread over ranks without loss or duplication | `source/catalog/file.py:FileCatalogBase.__init__`, `source/catalog/file.py:FileCatalogBase.query_range`, `source/catalog/file.py:FileCatalogBase.get_hardcolumn` | Ranks: rows_once, query_range | - | proved |
| C07 | Random numbers do not depend on the number of processes | `mpirng.py:MPIRandomState` | Ranks: serial, layout_independent | - | proved |
| C08 | Worker groups are disjoint and cover the requested ranks | `batch.py:split_ranks` | Batch: groups_disjoint, all_ranks_covered, full_groups, colors | - | proved |
| C09 | Every task runs exactly once on one worker, under every schedule | `batch.py:TaskManager._get_tasks`, `batch.py:TaskManager._distribute_tasks`, `batch.py:TaskManager.iterate`, `batch.py:TaskManager.map` | Batch: exactly_once, one_at_a_time, no_deadlock, terminates, can_complete, map_in_order | - | proved |
| C10 | Scoped settings are restored on leaving the scope | `__init__.py:CurrentMPIComm`, `__init__.py:set_options` | Scope: options_restored, object_restores_snapshot, options_in_scope, unknown_option, cache_follows_options, comm_restored, comm_restored_no_try, comm_scope_is_explicit_comm | - | proved |
| C11 | A catalog behaves like a map from column name to value | `base/catalog.py:CatalogSourceBase.__getitem__`, `base/catalog.py:CatalogSourceBase.__setitem__`, `base/catalog.py:CatalogSourceBase.__delitem__`, `base/catalog.py:CatalogSourceBase.columns` | Cat: assign, assign_refused, last_write, created, delete, delete_refused, columns, view | - | proved |
| C12 | Slicing a catalog selects the same rows in every column and reports the right size | `base/catalog.py:CatalogSourceBase._get_slice`, `base/catalog.py:CatalogSourceBase.__getitem__` | Cat: slice, slice_defined, select_columns, select_missing | - | proved |
| C13 | Global slicing equals slicing the concatenated catalog | `base/catalog.py:CatalogSource.gslice` | Dist: gslice_even, gslice_local, gslice_negative, gslice_zero | - | proved |
| C14 | Sorting a catalog is a stable lexicographic sort of all rows by the listed keys | `base/catalog.py:CatalogSource.sort`, `base/catalog.py:CatalogSource._sort_data` | Dist: sort, refused, refused_type | - | proved |
| C15 | Painting deposits every particle exactly once whatever the chunk throttling | `source/mesh/catalog.py:CatalogMesh.to_real_field` | Paint: exactly_once, mean, mean_one, out_adds | - | proved |
| C16 | apply() never changes the original mesh, and actions run once each in order | `base/mesh.py:MeshSource.apply`, `base/mesh.py:MeshSource._paint_XXX`, `source/mesh/catalog.py:CatalogMesh.actions`, `source/mesh/species.py:MultipleSpeciesCatalogMesh.__getitem__` | Mesh: apply, apply_refused, frame, compute, compensated_once, result_attrs | - | proved |
| C17 | Pair-count results can be merged in any grouping | `algorithms/pair_counters/corrfunc/base.py:CorrfuncResult.__add__`, `algorithms/pair_counters/corrfunc/base.py:MPICorrfuncCallable.__call__` | Pair: merge, call | - | proved |
| C18 | Cloning a cosmology changes exactly the parameters that were given | `cosmology/cosmology.py:Cosmology.clone`, `cosmology/cosmology.py:compile_args`, `cosmology/cosmology.py:merge_args`, `cosmology/cosmology.py:check_args`, `cosmology/cosmology.py:CONFLICTS` | Cosmo: clone_sets, clone_translated, clone_conflicts_gone, clone_keeps, clone_identity, refuses, clone_total, clone_again, class_pars | - | proved |
| C19 | Global labels of a distributed sorted array are dense and rank-independent | `utils.py:DistributedArray.unique_labels`, `utils.py:LinearTopology` | Da: unique_labels, meaning | - | proved |
| C20 | Distributed bincount equals the global bincount | `utils.py:DistributedArray.bincount` | Da: shared, shared_gaps, unshared | - | proved |
| C21 | Friends-of-friends labels are dense, size ordered and discard only groups that are too small | `algorithms/fof.py:_assign_labels`, `algorithms/fof.py:FOF` | Fof: labels | - | proved |
| C22 | Merging local groups across domains yields the connected components | `algorithms/fof.py:_fof_merge`, `algorithms/fof.py:fof` | Fof: merge, same_id, friends | - | proved |
| C23 | Rebinning a binned statistic conserves totals | `binned_statistic.py:bin_ndarray`, `binned_statistic.py:BinnedStatistic.reindex` | Bin: reindex, total, constant, leftover_refused, average, bin_total | - | proved |
| C24 | Slicing a binned statistic keeps data, mask, edges and centres consistent | `binned_statistic.py:BinnedStatistic.__getitem__`, `binned_statistic.py:BinnedStatistic.__slice_edges__`, `binned_statistic.py:BinnedStatistic.take`, `binned_statistic.py:BinnedStatistic.sel` | Bin: getitem, contiguous_edges, take, sel, names, refused | - | proved |
| C25 | Rebinning is a pure function of its arguments | `binned_statistic.py:BinnedStatistic.reindex` | Bin: call, history, as_set | - | proved |
| C26 | Saved metadata is restored exactly | `utils.py:JSONEncoder`, `utils.py:JSONDecoder` | Json: round_trip, numpy_numbers, tuple | - | proved |
| C27 | Partitioning a text file preserves its rows | `io/csv.py:make_partitions`, `io/csv.py:CSVFile`, `io/csv.py:CSVFile.read` | Csv: read, read_limited, one_block, every_file | - | proved |
| C28 | Fiber assignment leaves no two assigned objects in collision | `algorithms/fibercollisions.py:FiberCollisions._assign_fibers`, `algorithms/fibercollisions.py:FiberCollisions._assign_multiplets` | Fiber: assigned, no_collision | - | proved |
| C29 | Cylindrical groups: centrals are exactly the greedy maximal set | `algorithms/cgm.py:CylindricalGroups.run` | Cgm: groups | - | proved |
| C30 | Binned mode sums count every Fourier mode exactly once | `algorithms/fftpower.py:project_to_basis`, `meshtools.py:SlabIterator`, `meshtools.py:MeshSlab` | Leg/Pow: legendre, projection, spectrum, blocks | R1 R2 FE; -; -; - | proved |
| C31 | Projected power weights account for every mode | `algorithms/fftpower.py:ProjectedFFTPower.run` | Pow: projected | - | proved |
| C32 | Three-point multipoles equal the triple sum independent of bunching and decomposition | `algorithms/threeptcf.py:Base3PCF._run` | Three: triplets | R1 R2 FE | proved |
| C33 | Species columns route to the right species only | `source/catalog/species.py:MultipleSpeciesCatalog`, `source/catalog/species.py:split_column` | Names: constructor, read, set_accepted, set_needs_species, last_write, delete, frame, frame_species, columns, columns_nodup | - | proved |
| C34 | Multi-species painting combines the species with the right weights | `source/mesh/species.py:MultipleSpeciesCatalogMesh.to_real_field` | Paint: species_average, species_mean | - | proved |
| C35 | Redshift histogram counts every object in range once | `algorithms/zhist.py:RedshiftHistogram.__init__`, `algorithms/zhist.py:RedshiftHistogram.run` | Survey: bins, one_bin, total, density, automatic | - | proved |
| C36 | Analytic random counts add up | `algorithms/paircount_tpcf/estimators.py:AnalyticUniformRandoms`, `algorithms/paircount_tpcf/estimators.py:NaturalEstimator` | Pair/Rand: natural, shells, wedges, rings | -; R1 R2 FE; R1 R2 FE; R1 R2 FE | proved |
| C37 | Domain decomposition loses and duplicates no pairs | `algorithms/pair_counters/domain.py:decompose_box_data`, `algorithms/pair_counters/base.py` | Pair: pairs | - | proved |
| C38 | Process grids use all processes | `utils.py:split_size_3d` | Pair: factors | - | proved |
| C39 | The survey box encloses all objects | `algorithms/convpower/catalog.py:FKPCatalog._define_bbox`, `algorithms/convpower/catalogmesh.py:FKPCatalogMesh.RecenteredPosition` | Survey: box, given, refused | - | proved |
| C40 | A survey power estimate can be run again | `algorithms/convpower/fkp.py:ConvolvedFFTPower.run`, `algorithms/convpower/fkp.py:ConvolvedFFTPower.shotnoise` | Survey: second_run, never_again, instance_refuted | - | partial |
| C41 | Only valid line-of-sight axis names are accepted | `algorithms/pair_counters/simbox.py:SimulationBoxPairCount.__init__` | Pair: los, axes | - | proved |
| C42 | Box positions are shifted into the symmetric range or refused | `algorithms/pair_counters/simbox.py:shift_to_box_center` | Pair: shift | - | proved |
| C43 | Reconstruction uses a unit line of sight and mass-conserving combinations | `algorithms/fftrecon.py:FFTRecon.__init__`, `algorithms/fftrecon.py:FFTRecon._compute_s`, `algorithms/fftrecon.py:FFTRecon.work_with` | Survey: unit_los, direction, refused, schemes, mean_zero, boost | - | proved |
| C44 | Poisson-sampled particles lie in the cell they were drawn for | `mockmaker.py:poisson_sample_to_points` | Survey: points, ranks, key | - | proved |
| C45 | Galaxy type codes match the published mapping | `source/catalog/halos.py:_populate_mock`, `source/catalog/halos.py:_enum_gal_types` | Names: published_codes, codes_distinct, two_types | - | proved |
| C46 | A uniform catalog has one well-defined size | `source/catalog/uniform.py:RandomCatalog`, `source/catalog/uniform.py:UniformCatalog` | Ranks: random_catalog_total, uniform_seeded_total | - | proved |
| C47 | Excluding a data set from an HDF file excludes nothing else | `io/hdf.py:HDFFile.__init__`, `io/hdf.py:find_datasets` | Names: exclude, accepts | - | proved |
| C48 | Modifying the attributes of a copy or slice does not change the original | `base/catalog.py:CatalogSourceBase.__finalize__`, `base/catalog.py:CatalogSourceBase.copy`, `base/catalog.py:CatalogSourceBase.attrs` | Cat: copy_same, independent | - | proved |
| C49 | Conversion to astropy keeps the dark energy equation of state | `cosmology/cosmology.py:Cosmology.to_astropy` | Cosmo: to_astropy_w | - | proved |
| C50 | Data bounds are the global extremes | `utils.py:get_data_bounds` | Ranks: bounds_are_extremes, bounds_total | - | proved |
| C51 | Every index accepted by an array is accepted by a file | `io/base.py:FileType.__getitem__`, `io/stack.py:FileStack.read`, `io/binary.py:BinaryFile.read` | Io: negative_step_refuted, reversed_bounds_refuted, empty_mask_raises_partial, empty_mask_refuted, binary_out_of_range_refuted, binary_reversed_bounds_refuted | - | partial |
| C52 | Scatter and gather work for every root | `utils.py:GatherArray`, `utils.py:ScatterArray` | Ranks: gather_mismatch_other_root_refuted, scatter_other_root_refuted | - | partial |
| C53 | Nested range queries of a file catalog compose | `source/catalog/file.py:FileCatalogBase.query_range` | Ranks: nested_absolute_refuted, nested_relative_refuted, range_escapes_refuted, query_partial | - | partial |
| C54 | Random draws are layout independent for every sampler | `mpirng.py:MPIRandomState.choice`, `mpirng.py:MPIRandomState._call_rngmethod` | Ranks: unstable_sampler_refuted | - | partial |
| C55 | An unseeded uniform catalog has one well-defined size | `source/catalog/uniform.py:UniformCatalog` | Ranks: uniform_unseeded_refuted | - | partial |
| C56 | Data bounds are computed for every distribution and selection | `utils.py:get_data_bounds` | Ranks: bounds_uneven_refuted, bounds_selection_refuted | - | partial |
| C57 | The communicator is restored when the body of its scope raises | `__init__.py:CurrentMPIComm.enter` | Scope: comm_restored_on_exception_refuted, leak_count_partial | - | partial |
| C58 | Attributes of a slice are independent of the parent | `base/catalog.py:CatalogSourceBase._get_slice`, `base/catalog.py:CatalogSourceBase.__finalize__` | Cat: slice_attrs_refuted | - | partial |
| C59 | copy() works for every catalog | `base/catalog.py:CatalogSourceBase.copy`, `base/catalog.py:CatalogSourceBase.attrs` | Cat: copy_refuted | - | partial |
| C60 | Deleting an override uncovers the hard column | `base/catalog.py:CatalogSourceBase.__delitem__` | Cat: uncover_hard_refuted | - | partial |
| C61 | gslice follows Python's order for negative steps | `base/catalog.py:CatalogSource.gslice` | Dist: reversed_refuted | - | partial |
| C62 | sort(reverse=True) sorts integer columns in descending order | `base/catalog.py:_sort_data` | Dist: reverse_int_refuted | - | partial |
| C63 | sort orders negative floating point values | `base/catalog.py:_sort_data` | Dist: negative_floats_refuted | - | partial |
| C64 | Index numbers all rows once | `base/catalog.py:CatalogSource.Index` | Dist: index | - | proved |
| C65 | After sort the rows are spread evenly | `base/catalog.py:CatalogSource.sort` | Dist: even_refuted | - | partial |
| C66 | A normalised painted field has mean one whatever the Value column | `source/mesh/catalog.py:CatalogMesh.to_real_field` | Paint: mean_one_for_values_refuted | - | partial |
| C67 | An empty species does not spoil the shot noise | `source/mesh/species.py:MultipleSpeciesCatalogMesh.to_real_field` | Paint: empty_species_shotnoise_refuted | - | partial |
| C68 | Members of a compensated species mesh compensate once | `source/mesh/species.py:MultipleSpeciesCatalogMesh.__getitem__` | Mesh: member_compensated_once_refuted | - | partial |
| C69 | The state of a binned statistic is restored | `binned_statistic.py:BinnedStatistic.from_state`, `binned_statistic.py:BinnedStatistic.__getstate__` | Bin: state | - | proved |
| C70 | The state includes the fields to sum | `binned_statistic.py:BinnedStatistic.from_state` | Bin: fields_lost_refuted | - | partial |
| C71 | Rebinning averages integer variables | `binned_statistic.py:BinnedStatistic.reindex` | Bin: integer_mean_refuted | - | partial |
| C72 | Rebinning refuses uneven bins | `binned_statistic.py:BinnedStatistic.reindex` | Bin: uneven_refuted | - | partial |
| C73 | average covers the whole dimension | `binned_statistic.py:BinnedStatistic.average` | Bin: average_uneven_refuted | - | partial |
| C74 | Bins selected by a list keep their edges | `binned_statistic.py:BinnedStatistic.__slice_edges__` | Bin: list_edges_refuted | - | partial |
| C75 | Integers and lists can be mixed in an index | `binned_statistic.py:BinnedStatistic.__getitem__` | Bin: mixed_key_refuted | - | partial |
| C76 | Rebinning one statistic does not affect others | `binned_statistic.py:BinnedStatistic.reindex` | Bin: leak_refuted | - | partial |
| C77 | sel returns bins in the order asked for | `binned_statistic.py:BinnedStatistic.sel`, `binned_statistic.py:BinnedStatistic.take` | Bin: sel_order_refuted | - | partial |
| C78 | Slicing keeps given coordinates | `binned_statistic.py:BinnedStatistic.__slice_edges__` | Bin: coords_refuted | - | partial |
| C79 | Weighted rebinning ignores missing values | `binned_statistic.py:bin_ndarray` | Bin: weighted_missing_refuted | - | partial |
| C80 | average works for one dimension | `binned_statistic.py:BinnedStatistic.average` | Bin: average_1d_refuted | - | partial |
| C81 | take with a mask keeps the cells where it holds | `binned_statistic.py:BinnedStatistic.take` | Bin: take_mask_refuted | - | partial |
| C82 | Concatenation of distributed arrays keeps the global order | `utils.py:DistributedArray.concat` | Da: concat | - | proved |
| C83 | cempty spreads the items evenly | `utils.py:DistributedArray.cempty` | Da: cempty | - | proved |
| C84 | FOF keeps groups with exactly nmin members | `algorithms/fof.py:FOF`, `algorithms/fof.py:_assign_labels` | Fof: nmin_refuted | - | partial |
| C85 | FOF works when a rank has no particles | `algorithms/fof.py:_assign_labels` | Fof: empty_rank_refuted | - | partial |
| C86 | Empty distributed arrays can be made | `utils.py:DistributedArray` | Da: empty_array_refuted | - | partial |
| C87 | max_label is the largest label | `algorithms/fof.py:FOF.run` | Fof: max_label_refuted | - | partial |
| C88 | Length counts the particles of each halo | `algorithms/fof.py:fof_catalog`, `algorithms/fof.py:count` | Fof: length | - | proved |
| C89 | Centers without a box are means | `algorithms/fof.py:centerofmass`, `algorithms/fof.py:equiv_class` | Fof: cm | - | proved |
| C90 | Centers in a box respect the periodic boundary | `algorithms/fof.py:centerofmass` | Fof: cm_periodic | - | proved |
| C91 | Peaks are the densest particles of the group | `algorithms/fof.py:fof_catalog` | Fof: peaks | - | proved |
| C92 | Process grids are in order | `utils.py:split_size_3d` | Pair: order_refuted | - | partial |
| C93 | Strings that are no axis names are refused | `algorithms/pair_counters/simbox.py:SimulationBoxPairCount.__init__` | Pair: los_refuted | - | partial |
| C94 | Positions on the boundary are accepted | `algorithms/pair_counters/simbox.py:shift_to_box_center` | Pair: closed_refuted | - | partial |
| C95 | Positions around the center are unchanged | `algorithms/pair_counters/simbox.py:shift_to_box_center` | Pair: centered_refuted | - | partial |
| C96 | The pair normalisation counts pairs of objects | `algorithms/pair_counters/base.py:PairCountBase.__init__` | Pair: total_auto, total_cross, twice | - | proved |
| C97 | The Landy-Szalay estimate does not depend on the scale of the weights | `algorithms/paircount_tpcf/estimators.py:LandySzalayEstimator` | Pair: scale, zero, nan | - | proved |
| C98 | The natural estimate of one sample is unbiased | `algorithms/paircount_tpcf/estimators.py:NaturalEstimator` | Pair: natural_refuted | - | partial |
| C99 | Angular filling factors are those of spherical caps | `algorithms/paircount_tpcf/estimators.py:AnalyticUniformRandoms.get_filling_factor` | Rand: angular_refuted | R1 R2 FE | partial |
| C100 | Every alias can be cloned | `cosmology/cosmology.py:Cosmology.clone`, `cosmology/cosmology.py:CONFLICTS` | Cosmo: orphans_refuted, orphans_ignored | - | partial |
| C101 | Cloning with other neutrino masses updates N_ur | `cosmology/cosmology.py:Cosmology.clone`, `cosmology/cosmology.py:compile_args` | Cosmo: stale_N_ur_refuted | - | partial |
| C102 | Massless species by density | `cosmology/cosmology.py:Cosmology.clone`, `cosmology/cosmology.py:compile_args` | Cosmo: ur_keyerror, ur_density_refuted | - | partial |
| C103 | The constructor uses its arguments | `cosmology/cosmology.py:Cosmology.__init__`, `cosmology/cosmology.py:compile_args` | Cosmo: init_sets, defaults, neutrinos, neutrinos_refused | - | proved |
| C104 | All contradictions are refused | `cosmology/cosmology.py:check_args`, `cosmology/cosmology.py:CONFLICTS` | Cosmo: contradiction_refuted | - | partial |
| C105 | The constructor specifies every quantity once | `cosmology/cosmology.py:Cosmology.__init__` | Cosmo: given_twice_refuted | - | partial |
| C106 | match reaches its target | `cosmology/cosmology.py:Cosmology.match` | Cosmo: match_cb, match_m, match_sigma8 | - | proved |
| C107 | w0 survives to_astropy for every equation of state | `cosmology/cosmology.py:Cosmology.to_astropy` | Cosmo: to_astropy_w0_refuted | - | partial |
| C108 | from_astropy(to_astropy()) starts from the same parameters | `cosmology/cosmology.py:Cosmology.to_astropy`, `cosmology/cosmology.py:astropy_to_dict` | Cosmo: astropy_roundtrip | - | proved |
| C109 | clone() is the identity after any clone | `cosmology/cosmology.py:Cosmology.clone`, `cosmology/cosmology.py:compile_args` | Cosmo: output_none_refuted | - | partial |
| C110 | Every listed column can be read | `source/catalog/species.py:MultipleSpeciesCatalog.columns`, `source/catalog/species.py:split_column` | Names: slash_columns_refuted | - | partial |
| C111 | Metadata of species must agree | `source/catalog/species.py:check_species_metadata` | Names: metadata, metadata_error | - | proved |
| C112 | Galaxy type codes match for every order of types | `source/catalog/halos.py:_enum_gal_types` | Names: unsorted_types_refuted | - | partial |
| C113 | Excluding a data set keeps data sets with longer names | `io/hdf.py:HDFFile.__init__` | Names: prefix_refuted | - | partial |
| C114 | The header is excluded under any of its names | `io/hdf.py:HDFFile.__init__` | Names: header_refuted | - | partial |
| C115 | The rightmost edge belongs to the last bin | `algorithms/zhist.py:RedshiftHistogram.run` | Survey: last_edge_refuted, automatic_refuted | - | partial |
| C116 | Integer bin numbers are accepted | `algorithms/zhist.py:RedshiftHistogram.__init__` | Survey: integer_bins, integer_bins_refuted | - | partial |
| C117 | Empty ranks are accepted | `algorithms/zhist.py:RedshiftHistogram.__init__`, `algorithms/zhist.py:scotts_bin_width` | Survey: empty_rank_refuted, automatic_iff | - | partial |
| C118 | The numbers of the survey estimate are the documented sums | `algorithms/convpower/fkp.py:ConvolvedFFTPower.normalization`, `algorithms/convpower/fkp.py:ConvolvedFFTPower.shotnoise`, `algorithms/convpower/catalogmesh.py:FKPCatalogMesh.weighted_total` | Survey: first_run | - | proved |
| C119 | The survey field integrates to the weight difference | `algorithms/convpower/catalogmesh.py:FKPCatalogMesh.to_real_field` | Survey: field_total, field_zero | - | proved |
| C120 | A line of sight of any length is normalised | `algorithms/fftrecon.py:FFTRecon.__init__` | Survey: los_length_refuted, iff | - | partial |
| C121 | Redshift distortions are removed along any line of sight | `algorithms/fftrecon.py:FFTRecon._compute_s` | Survey: boost_refuted, oblique_refuted | - | partial |
| C122 | Particles stay in anisotropic cells | `mockmaker.py:poisson_sample_to_points` | Survey: anisotropic_refuted | - | partial |
| C123 | The survey box holds data and randoms | `algorithms/convpower/catalog.py:FKPCatalog.to_mesh` | Survey: data_outside_refuted | - | partial |
| C124 | The joint box of two survey meshes holds both | `algorithms/convpower/fkp.py:ConvolvedFFTPower.__init__` | Survey: joint_box_refuted, same_size_refuted | - | partial |
| C125 | An empty list of multipoles is accepted | `algorithms/convpower/fkp.py:ConvolvedFFTPower._compute_multipoles` | Survey: no_poles_refuted | - | partial |
| C126 | The last line may begin anywhere | `io/csv.py:make_partitions` | Csv: straddling_line_refuted | - | partial |
| C127 | An unterminated last line is read | `io/csv.py:make_partitions`, `io/csv.py:CSVFile.read` | Csv: unterminated_line_refuted | - | partial |
| C128 | nrows bounds the size | `io/csv.py:make_partitions` | Csv: limit_refuted, zero_refuted | - | partial |
| C129 | Skipping all rows gives an empty file | `io/csv.py:make_partitions` | Csv: skip_refuted | - | partial |
| C130 | Blank lines are not counted | `io/csv.py:make_partitions` | Csv: double_blank_refuted, white_space_refuted, blank_first_refuted | - | partial |
| C131 | Empty arrays keep their shape | `utils.py:JSONDecoder.hook` | Json: empty_array_refuted | - | partial |
| C132 | Dictionaries with any keys are restored | `utils.py:JSONDecoder.hook` | Json: key_changes_value_refuted, key_unreadable_refuted | - | partial |
| C133 | Tuples and integer keys are restored | `utils.py:JSONEncoder`, `utils.py:JSONDecoder` | Json: tuple_refuted, integer_keys_refuted | - | partial |
| C134 | Quantities keep their type | `utils.py:JSONEncoder.default`, `utils.py:JSONDecoder.hook` | Json: scalar_refuted, integers_refuted | - | partial |
| C135 | All complex numbers are restored | `utils.py:JSONDecoder.hook` | Json: infinite_imaginary_refuted | - | partial |
| C136 | Every numpy scalar can be saved | `utils.py:JSONEncoder.default` | Json: numpy_bool_refuted, complex64_refuted | - | partial |
| C137 | Collided objects have an assigned neighbour within the radius | `algorithms/fibercollisions.py:FiberCollisions._assign_multiplets` | Fiber: within_radius_refuted | - | partial |
| C138 | The assignment does not depend on the number of ranks | `algorithms/fibercollisions.py:FiberCollisions.run`, `algorithms/fibercollisions.py:FiberCollisions._assign_fibers` | Fiber: ranks_refuted | - | partial |
| C139 | The domain grid spans the positions | `algorithms/cgm.py:CylindricalGroups.run` | Cgm: grid_refuted | - | partial |
| C140 | Ranks without objects are accepted | `algorithms/cgm.py:CylindricalGroups.run` | Cgm: empty_rank_refuted | - | partial |
| C141 | Every central has a number | `algorithms/cgm.py:cgm` | Cgm: origin_refuted | - | partial |
| C142 | Being in each other's cylinder is symmetric | `algorithms/cgm.py:cgm` | Cgm: symmetric, periodic_refuted | - | partial |
| C143 | Wedges hold the modes by their own mu | `algorithms/fftpower.py:project_to_basis` | Pow: wedges_by_own_mu_refuted | - | partial |
| C144 | The correlation function averages all separations | `algorithms/fftcorr.py:FFTCorr.run` | Pow: correlation_all_separations_refuted | - | partial |
| C145 | The correlation function averages the separations with positive mu | `algorithms/fftcorr.py:FFTCorr.run`, `algorithms/fftpower.py:project_to_basis` | Pow: correlation | - | proved |
| C146 | Accepted lines of sight keep all modes | `algorithms/fftpower.py:FFTPower.__init__`, `algorithms/fftpower.py:project_to_basis` | Pow: accepted_line_of_sight_refuted | - | partial |
| C147 | Odd multipoles average all modes | `algorithms/fftpower.py:project_to_basis` | Pow: odd_multipoles_refuted | - | partial |
| C148 | Projected modes for odd meshes | `algorithms/fftpower.py:ProjectedFFTPower.run` | Pow: projected_odd_axis_refuted | - | partial |
| C149 | Projected cross power is the average over the modes | `algorithms/fftpower.py:ProjectedFFTPower.run` | Pow: projected_imaginary_refuted | - | partial |
| C150 | Small catalogs are accepted | `algorithms/threeptcf.py:Base3PCF._run` | Three: small, small_refuted | R1 R2 FE | partial |
| C151 | Triplets consist of three distinct objects | `algorithms/threeptcf.py:Base3PCF._run` | Three: distinct_refuted | R1 R2 FE | partial |
| C152 | The real spherical harmonics satisfy the addition theorem | `algorithms/convpower/fkp.py:get_real_Ylm` | Leg/Ylm: legendre, addition, unit | R1 R2 FE | proved |
| C153 | The harmonics of the three-point function satisfy the addition theorem | `algorithms/threeptcf.py:YlmCache._get_Ylm`, `algorithms/threeptcf.py:Base3PCF._run` | Ylm: addition, triplets | R1 R2 FE | proved |
| C154 | The multipoles of ConvolvedFFTPower are averages over the modes of the shell | `algorithms/convpower/fkp.py:ConvolvedFFTPower._compute_multipoles` | Conv: multipoles | R1 R2 FE | proved |
| C155 | Odd multipoles of real meshes are averages over all modes | `algorithms/convpower/fkp.py:ConvolvedFFTPower._compute_multipoles` | Conv: odd_compressed_refuted | R1 R2 FE | partial |
| C156 | The zero mode has no part in the higher multipoles | `algorithms/convpower/fkp.py:ConvolvedFFTPower._compute_multipoles` | Conv: zero_mode_refuted | R1 R2 FE | partial |
| C157 | Negative multipoles are refused | `algorithms/convpower/fkp.py:ConvolvedFFTPower._compute_multipoles` | Conv: negative_refuted | R1 R2 FE | partial |
| C158 | to_pkmu gives the means of the multipole series over the wedges | `algorithms/convpower/fkp.py:ConvolvedFFTPower.to_pkmu` | Conv: wedges, monopole, missing | R1 R2 FE CL; R1 R2 FE CL; R2 FE | proved |
| C159 | Sky and Cartesian coordinates agree | `transform.py:CartesianToEquatorial`, `transform.py:SkyToUnitSphere`, `transform.py:SkyToCartesian` | Sky: equatorial, cartesian, mismatch | R1 R2 FE CL; R1 R2 FE; R1 R2 FE | proved |
| C160 | CartesianToSky inverts SkyToCartesian within the redshift table | `transform.py:CartesianToSky`, `transform.py:SkyToCartesian` | Sky: sky, roundtrip, beyond | R1 R2 FE CL | proved |
| C161 | VectorProjection is the orthogonal projection | `transform.py:VectorProjection` | Sky: projection, length_of_direction, twice | R1 R2 FE | proved |
| C162 | VectorProjection keeps the shape of its input | `transform.py:VectorProjection` | Sky: shape_refuted, rows | - | partial |
| C163 | StackColumns puts column j into column j | `transform.py:StackColumns` | Sky: stack, mismatch | - | proved |
| C164 | Concatenated catalogs hold the rows of all sources | `transform.py:ConcatenateSources` | Sky: concatenate, ranks, missing | - | proved |
| C165 | Columns of concatenated catalogs can have any name | `transform.py:ConcatenateSources`, `base/catalog.py:CatalogSource._from_columns` | Sky: names_refuted | - | partial |
| C166 | KDDensity is the inverse cube of the distance to the eighth particle | `algorithms/kdtree.py:KDDensity.run` | Kd: density, one_rank, bound | R1 R2 FE CL | proved |
| C167 | KDDensity uses the nearest neighbour | `algorithms/kdtree.py:KDDensity.run` | Kd: nearest_refuted | R1 R2 FE CL | partial |
| C168 | KDDensity does not depend on the number of ranks | `algorithms/kdtree.py:KDDensity.run` | Kd: ranks_refuted | R1 R2 FE CL | partial |
| C169 | The margin of KDDensity is relative to the mean separation | `algorithms/kdtree.py:KDDensity.__init__` | Kd: margin_refuted | R1 R2 FE CL | partial |
| C170 | A saved catalog is read back row by row | `base/catalog.py:CatalogSourceBase.save`, `io/bigfile.py:BigFile.__init__`, `source/catalog/file.py:FileCatalogBase.__init__` | Save: write, save | - | proved |
| C171 | Columns of any name are read back | `base/catalog.py:CatalogSourceBase.save`, `io/bigfile.py:BigFile._find_headers` | Save: header_refuted | - | partial |
| C172 | Attributes of columns are saved | `base/catalog.py:CatalogSourceBase.save`, `base/catalog.py:ColumnAccessor.__new__`, `base/catalog.py:CatalogSourceBase.__getitem__` | Save: column_attrs_refuted | - | partial |
| C173 | Attributes of a saved catalog are restored | `base/catalog.py:CatalogSourceBase.save`, `io/bigfile.py:BigFile.__init__` | Save: attrs | - | proved |
| C174 | String attributes of a saved catalog are restored | `io/bigfile.py:BigFile.__init__` | Save: json_refuted | - | partial |
| C175 | ArrayCatalog accepts arrays distributed in any way | `source/catalog/array.py:ArrayCatalog.__init__` | Save: array | - | proved |
| C176 | ArrayCatalog refuses mismatched types on all ranks | `source/catalog/array.py:ArrayCatalog.__init__` | Save: mismatch_refuted | - | partial |
| C177 | Subvolumes keep rows together | `source/catalog/subvolumes.py:SubVolumesCatalog.__init__` | Save: subvolumes, total | - | proved |
| C178 | Gaussian fields have the linear power spectrum | `mockmaker.py:gaussian_complex_fields` | Mock: spectrum | R1 R2 FE | proved |
| C179 | The displacement is the Zel'dovich displacement of the overdensity | `mockmaker.py:gaussian_complex_fields` | Mock: displacement | R1 R2 FE | proved |
| C180 | Gaussian fields are real, and change sign with the phase | `mockmaker.py:gaussian_complex_fields` | Mock: real, inverted | R1 R2 FE | proved |
| C181 | The displacement field has minus the overdensity as divergence in every mode | `mockmaker.py:gaussian_complex_fields`, `mockmaker.py:gaussian_real_fields` | Mock: nyquist_refuted | R1 R2 FE | partial |
| C182 | LinearMesh has mean one | `source/mesh/linear.py:LinearMesh.to_complex_field` | Mock: linear | R1 R2 FE | proved |
| C183 | The lognormal transform is positive, of mean one, and independent of ranks | `mockmaker.py:lognormal_transform`, `mockmaker.py:poisson_sample_to_points` | Mock: lognormal, expected | R1 R2 FE | proved |
| C184 | Particles of LogNormalCatalog lie in the box | `source/catalog/lognormal.py:LogNormalCatalog._makesource` | Mock: particles | R2 FE | proved |
| C185 | Filters keep the mean and reality of a field and damp all modes | `filters.py:TopHat.filter`, `filters.py:Gaussian.filter` | Mock: filters, real, compose | R1 R2 FE CL; R1 R2 FE CL; R1 R2 FE | proved |
| C186 | A filter of radius zero leaves the field alone | `filters.py:TopHat.filter` | Mock: radius_refuted | R1 R2 FE | partial |
| C187 | Survey pair counts are the sums over all pairs on any number of ranks | `algorithms/pair_counters/mocksurvey.py:SurveyDataPairCount.run`, `algorithms/pair_counters/domain.py:decompose_survey_data`, `algorithms/pair_counters/domain.py:get_cartesian`, `algorithms/pair_counters/corrfunc/mocks.py:CorrfuncMocksCallable.__call__`, `algorithms/pair_counters/base.py:PairCountBase.__init__` | Spc: survey, refused | R1 R2 FE | proved |
| C188 | Angular pair counts in a box are seen from its centre | `algorithms/pair_counters/simbox.py:SimulationBoxPairCount.run`, `algorithms/pair_counters/simbox.py:shift_to_box_center`, `algorithms/pair_counters/domain.py:decompose_survey_data` | Spc: box | R1 R2 FE CL | proved |
| C189 | Counting pairs leaves the catalog as it was | `algorithms/pair_counters/simbox.py:SimulationBoxPairCount.run` | Spc: columns_refuted | R1 R2 FE CL | partial |
| C190 | wp is twice the integral of the correlation over pi | `algorithms/paircount_tpcf/tpcf.py:_compute_wp` | Tpcf: constant, ranges, missing | - | proved |
| C191 | The monopole of to_poles is the mean over mu | `algorithms/paircount_tpcf/estimators.py:WedgeBinnedStatistic.to_poles` | Leg/Tpcf: legendre, monopole, quadrupole | R1 R2 FE; -; - | proved |
| C192 | An isotropic correlation has no quadrupole | `algorithms/paircount_tpcf/estimators.py:WedgeBinnedStatistic.to_poles` | Tpcf: isotropic_refuted | - | partial |
| C193 | With randoms the estimate is that of Landy and Szalay | `algorithms/paircount_tpcf/tpcf.py:BasePairCount2PCF.run`, `algorithms/paircount_tpcf/estimators.py:LandySzalayEstimator` | Tpcf: landy, swap, same, reuse, given, refused | - | proved |
| C194 | A second sample without its randoms raises ValueError | `algorithms/paircount_tpcf/tpcf.py:BasePairCount2PCF.run` | Tpcf: documented_refuted | - | partial |
| C195 | Randoms that are given are used | `algorithms/paircount_tpcf/tpcf.py:BasePairCount2PCF.run` | Tpcf: randoms_refuted | - | partial |
| C196 | Angular correlations with analytic randoms use the sphere around the centre of the box | `algorithms/paircount_tpcf/tpcf.py:_restrict_to_spherical_volume`, `algorithms/pair_counters/simbox.py:shift_to_box_center` | Tpcf: sphere_refuted | - | partial |
| C197 | Saved correlation functions and pair counts are restored | `algorithms/paircount_tpcf/tpcf.py:BasePairCount2PCF.__getstate__`, `algorithms/paircount_tpcf/tpcf.py:BasePairCount2PCF.__setstate__`, `algorithms/pair_counters/base.py:PairCountBase.__setstate__` | Tpcf: tpcf, pairs | - | proved |
| C198 | The total weight of pairs is restored | `algorithms/pair_counters/base.py:PairCountBase.__getstate__`, `algorithms/pair_counters/base.py:PairCountBase.__setstate__` | Tpcf: total_refuted | - | partial |
| C199 | Pair counts loaded with a correlation function are summed when bins are merged | `algorithms/paircount_tpcf/tpcf.py:BasePairCount2PCF.__setstate__` | Tpcf: sums_refuted | - | partial |
| C200 | Growth functions solve the growth equations | `cosmology/background.py:Perturbation.__init__`, `cosmology/background.py:Perturbation._solve`, `cosmology/background.py:Perturbation.ode`, `cosmology/background.py:Perturbation.gf`, `cosmology/background.py:MatterDominated.efunc_prime` | Grow: growth, hubble, flat | R1 R2 FE CL; R1 R2 FE CL; R1 R2 FE | proved |
| C201 | Einstein - de Sitter growth | `cosmology/background.py:MatterDominated.get_initial_condition`, `cosmology/background.py:Perturbation.ode` | Grow: eds | R1 R2 FE CL | proved |
| C202 | Growth functions are one at a_normalize | `cosmology/background.py:Perturbation.__init__`, `cosmology/background.py:Perturbation._solve` | Grow: normalized_refuted | R1 R2 FE CL | partial |
| C203 | Growth functions at other times are interpolated | `cosmology/background.py:Perturbation.D1` | Grow: later_refuted | R1 R2 FE CL | partial |
| C204 | LinearNbody grows as Perturbation | `cosmology/linearnbody.py:LinearNbody.J`, `cosmology/linearnbody.py:LinearNbody.integrate`, `cosmology/background.py:RadiationDominated.Om` | Grow: together, growth, solution | R1 R2 FE; R1 R2 FE CL; R1 R2 FE CL | proved |
| C205 | Pressure acts on its species only | `cosmology/linearnbody.py:LinearNbody.J` | Grow: pressure | R1 R2 FE | proved |
| C206 | LinearNbody works for every Cosmology | `cosmology/linearnbody.py:LinearNbody.J` | Grow: massless_refuted | R1 R2 FE | partial |
| C207 | The seed of cold dark matter moves with its momentum | `cosmology/linearnbody.py:LinearNbody.seed_from_synchronous` | Grow: cdm | R2 FE | proved |
| C208 | The seeds of baryons and neutrinos move with their momentum | `cosmology/linearnbody.py:LinearNbody.seed_from_synchronous` | Grow: baryon_refuted | R2 FE | partial |
| C209 | Setting redshift and sigma8 rescales the linear power | `cosmology/power/linear.py:LinearPower` | Lin: sets, ok, sigma8 | R1 R2 FE CL; R2 FE; R1 R2 FE CL | proved |
| C210 | sigma8 can be set to any value | `cosmology/power/linear.py:LinearPower.sigma8` | Lin: zero_refuted | R1 R2 FE CL | partial |
| C211 | Power with the transfer CLASS is that of CLASS | `cosmology/power/linear.py:LinearPower.__call__`, `cosmology/power/transfers.py:CLASS.__call__` | Lin: class | R1 R2 FE CL | proved |
| C212 | Integer wave numbers have the power of the same floats | `cosmology/power/linear.py:LinearPower.__call__` | Lin: integers_refuted | R1 R2 FE CL | partial |
| C213 | The Eisenstein-Hu transfer function is normalized on large scales | `cosmology/power/transfers.py:EisensteinHu` | Lin: large_scales | R1 R2 FE CL | proved |
| C214 | The transfer function without wiggles is normalized on large scales | `cosmology/power/transfers.py:NoWiggleEisensteinHu` | Lin: large_scales, range | R1 R2 FE CL | proved |
| C215 | The transfer functions at k = 0 are the same for numbers and arrays | `cosmology/power/transfers.py:EisensteinHu.__call__`, `cosmology/power/transfers.py:NoWiggleEisensteinHu.__call__` | Lin: scalar_zero_refuted | R1 R2 FE CL | partial |
| C216 | beta_c is that of Eisenstein and Hu | `cosmology/power/transfers.py:EisensteinHu.__init__` | Lin: larger, beta_c_refuted | R1 R2 FE CL | partial |
| C217 | Without non-Gaussianity galaxies have linear bias | `cosmology/power/galaxy.py:FNLGalaxyPower` | Lin: gaussian | R1 R2 FE | proved |
| C218 | All power objects can be given to CorrelationFunction | `cosmology/power/galaxy.py:FNLGalaxyPower`, `cosmology/correlation.py:CorrelationFunction.__init__` | Lin: correlation_refuted | - | partial |
| C219 | Scale-dependent bias does not depend on the amplitude of the power | `cosmology/power/galaxy.py:FNLGalaxyPower.total_bias` | Lin: amplitude_refuted | R1 R2 FE | partial |
| C220 | Halofit power uses the current cosmology and its range | `cosmology/power/halofit.py:HalofitPower` | Lin: range, current | R2 FE; - | proved |
| C221 | Zeldovich power follows its linear power | `cosmology/power/zeldovich.py:ZeldovichPower` | Lin: current, low_k | R1 R2 FE CL | proved |
| C222 | The correlation function is proportional to sigma8 squared | `cosmology/correlation.py:CorrelationFunction` | Lin: scales | R1 R2 FE CL | proved |
| C223 | attrs of CorrelationFunction describe its cosmology | `cosmology/correlation.py:CorrelationFunction.attrs` | Lin: attrs_refuted | R2 FE | partial |
| C224 | Gadget snapshots are read back | `io/gadget.py:Gadget1File` | Gad: open, read, bounds | - | proved |
| C225 | Gadget blocks of more than 2 GB are read | `io/gadget.py:Gadget1File.__init__` | Gad: big, gadget_2gb_refuted | - | partial |
| C226 | The FITS extension that is read | `io/fits.py:FITSFile.__init__` | Gad: default, number, name, error, missing | - | proved |
| C227 | FITS files with an image first | `io/fits.py:FITSFile.__init__` | Gad: fits_image_first_refuted | - | partial |
| C228 | A named FITS extension that is no table is a ValueError | `io/fits.py:FITSFile.__init__` | Gad: fits_named_refuted, iff | - | partial |
| C229 | TPM files are read back | `io/tpm.py:TPMBinaryFile` | Gad: read, precision | - | proved |
| C230 | read() accepts the name of a column | `io/binary.py:BinaryFile.read`, `io/gadget.py:Gadget1File.read` | Gad: str, str_columns_refuted | - | partial |
| C231 | attrs of populated catalogs describe their galaxies | `source/catalog/halos.py:_populate_mock`, `source/catalog/halos.py:PopulatedHaloCatalog.repopulate` | Hal: attrs | - | proved |
| C232 | populate and repopulate use the parameters given | `source/catalog/halos.py:HaloCatalog.populate`, `source/catalog/halos.py:PopulatedHaloCatalog.repopulate`, `source/catalog/halos.py:_populate_mock` | Hal: populate, repopulate, reproduce, invalid | - | proved |
| C233 | populate fills the halos of its catalog | `source/catalog/halos.py:HaloCatalog.populate`, `source/catalog/halos.py:_populate_mock` | Hal: reused, model_reuse_refuted | - | partial |
| C234 | A failed repopulate leaves the catalog as it was | `source/catalog/halos.py:_populate_mock` | Hal: failed_repopulate_refuted | - | partial |
| C235 | The seed of a populated catalog is one number | `source/catalog/halos.py:_populate_mock` | Hal: seed_none_refuted, given | - | partial |
| C236 | concentration_key names the column of concentrations | `hod.py:Zheng07Model.to_halotools`, `hod.py:HODModelFactory` | Hal: concentration_key_refuted, none_refuted, ignored | - | partial |
| C237 | A saved mesh is read back | `base/mesh.py:MeshSource.save`, `source/mesh/bigfile.py:BigFileMesh` | Fld: roundtrip, missing | - | proved |
| C238 | Attributes of a saved mesh are restored exactly | `base/mesh.py:MeshSource.save`, `source/mesh/bigfile.py:BigFileMesh.__init__` | Fld: vector_refuted, string_refuted, prefix_refuted | - | partial |
| C239 | Keywords of BigFileMesh are stored in attrs | `source/mesh/bigfile.py:BigFileMesh.__init__` | Fld: kwargs_refuted | - | partial |
| C240 | ArrayMesh holds the array of the root rank | `source/mesh/array.py:ArrayMesh.__init__` | Fld: real, complex | - | proved |
| C241 | ArrayMesh of a complex array has the mesh of its field | `source/mesh/array.py:ArrayMesh.__init__` | Fld: odd, odd_refuted | - | partial |
| C242 | Keywords of ArrayMesh are stored | `source/mesh/array.py:ArrayMesh.__init__` | Fld: kwargs_refuted | - | partial |
| C243 | preview shows the mesh | `base/mesh.py:MeshSource.preview` | Fld: source, filters_refuted | - | partial |
| C244 | Compensation of interlaced meshes undoes the window | `source/mesh/catalog.py:get_compensation`, `source/mesh/catalog.py:CompensateCIC`, `source/mesh/catalog.py:CompensateTSC`, `source/mesh/catalog.py:CompensatePCS` | Cmp: restore, other | R1 R2 FE CL; R1 R2 FE | proved |
| C245 | Compensation without interlacing makes shot noise white | `source/mesh/catalog.py:get_compensation`, `source/mesh/catalog.py:CompensateCICShotnoise`, `source/mesh/catalog.py:CompensateTSCShotnoise`, `source/mesh/catalog.py:CompensatePCSShotnoise` | Cmp: white, power | R1 R2 FE CL | proved |
| C246 | Slabs of a mesh | `meshtools.py:SlabIterator`, `meshtools.py:MeshSlab` | Slab: slabs, cells, refused_axis, refused_dims, nonsingular | R1 R2 FE; -; R2; -; R2 FE | proved |
| C247 | Setting a variable of a binned statistic | `binned_statistic.py:BinnedStatistic.__setitem__` | Var: set, shape | - | proved |
| C248 | The mask marks the cells that are not finite after a variable is replaced | `binned_statistic.py:BinnedStatistic.__setitem__` | Var: refuted | - | partial |
| C249 | Renaming variables and squeezing | `binned_statistic.py:BinnedStatistic.rename_variable`, `binned_statistic.py:BinnedStatistic.squeeze` | Var: rename, unknown, taken, squeeze, no_squeeze | - | proved |
| C250 | A renamed variable is rebinned as before | `binned_statistic.py:BinnedStatistic.rename_variable`, `binned_statistic.py:BinnedStatistic.reindex` | Var: refuted | - | partial |
| C251 | A binned statistic is read back from its JSON file | `binned_statistic.py:BinnedStatistic.to_json`, `binned_statistic.py:BinnedStatistic.from_json`, `binned_statistic.py:BinnedStatistic.__getstate__` | Var: json, attrs, missing, given | - | proved |
| C252 | All attributes are read back from JSON files | `binned_statistic.py:BinnedStatistic.from_json` | Var: refuted, sum_refuted | - | partial |
| C253 | Plain text files are read | `binned_statistic.py:BinnedStatistic.from_plaintext`, `binned_statistic.py:_Read1DPlainText`, `binned_statistic.py:_Read2DPlainText` | Txt: one, two | - | proved |
| C254 | Default names of columns in plain text files | `binned_statistic.py:_Read1DPlainText` | Txt: default_names_refuted | - | partial |
| C255 | Meta-data of plain text files is read with its type | `binned_statistic.py:_Read1DPlainText`, `binned_statistic.py:_Read2DPlainText` | Txt: false_refuted, text_refuted | - | partial |
| C256 | Columns of HDF files | `io/hdf.py:HDFFile.__init__`, `io/hdf.py:HDFFile.read`, `io/hdf.py:find_datasets` | Hdf: hdf_columns, refused | - | proved |
| C257 | A data set without fields can be opened as the data set | `io/hdf.py:HDFFile.__init__`, `io/hdf.py:HDFFile.read` | Hdf: plain_dataset_refuted | - | partial |
| C258 | The header of HDF files is kept | `io/hdf.py:HDFFile.__init__` | Hdf: header_refuted | - | partial |
| C259 | Views of files | `io/base.py:FileType.__getitem__`, `io/base.py:FileType.asarray`, `io/base.py:FileType.get_dask` | View: selection, array, column, vector, dask, refused | - | proved |
| C260 | Columns of matrices are read with their shape | `io/base.py:FileType.__getitem__`, `io/base.py:FileType.get_dask` | View: matrices_refuted | - | partial |
| C261 | Bins of equal modulus | `algorithms/fftpower.py:_find_unique_edges`, `algorithms/fftpower.py:FFTPower.run` | Uniq: modulus, few | R1 R2 FE | proved |
| C262 | With dk=0 all modes of a bin have the same modulus | `algorithms/fftpower.py:_find_unique_edges` | Uniq: last_bin_refuted | R1 R2 FE | partial |
| C263 | With dk=0 different moduli are in different bins for all boxes | `algorithms/fftpower.py:_find_unique_edges` | Uniq: merged_refuted | R1 R2 FE | partial |
| C264 | Linear bins | `algorithms/fftpower.py:FFTPower.run`, `algorithms/fftpower.py:FFTPower.__init__` | Uniq: linear, nyquist, default | R1 R2 FE | proved |
| C265 | The bins reach the Nyquist frequency | `algorithms/fftpower.py:FFTPower.run` | Uniq: long_box_refuted | R1 R2 FE | partial |
| C266 | kmin is the lower edge of the first bin | `algorithms/fftpower.py:FFTPower.run`, `algorithms/fftpower.py:_find_unique_edges` | Uniq: kmin_refuted | R1 R2 FE | partial |
| C267 | Sources and modes of the power | `algorithms/fftpower.py:FFTBase.__init__`, `algorithms/fftpower.py:FFTBase._compute_3d_power`, `algorithms/fftpower.py:_cast_source` | Fp: cast, refused, init, power | R2 FE | proved |
| C268 | The auto power of a catalog has its shot noise | `algorithms/fftpower.py:FFTBase.__init__`, `algorithms/fftpower.py:FFTBase._compute_3d_power`, `algorithms/fftpower.py:_cast_source` | Fp: shotnoise_refuted | R2 FE | partial |
| C269 | Shapes of power spectra and correlation functions | `algorithms/fftpower.py:FFTPower.run`, `algorithms/fftpower.py:FFTPower._make_datasets`, `algorithms/fftcorr.py:FFTCorr.run`, `algorithms/fftcorr.py:FFTCorr._make_datasets` | Fp: wedges, average, repeated | R2 FE | proved |
| C270 | A single bin is possible | `algorithms/fftpower.py:FFTPower.run`, `algorithms/fftcorr.py:FFTCorr.run` | Fp: single_bin_refuted | R2 FE | partial |
| C271 | Saved power spectra and correlation functions are loaded | `algorithms/fftpower.py:FFTBase.load`, `algorithms/fftpower.py:FFTPower.__getstate__`, `algorithms/fftpower.py:FFTPower.__setstate__`, `algorithms/fftcorr.py:FFTCorr.__setstate__` | Fp: saved | R2 FE | proved |
| C272 | Loaded results have the attribute poles | `algorithms/fftpower.py:FFTPower.__setstate__`, `algorithms/fftcorr.py:FFTCorr.__setstate__` | Fp: poles_refuted | R2 FE | partial |
| C273 | Bins in separation | `algorithms/fftcorr.py:FFTCorr.run` | Fp: linear, half | R1 R2 FE | proved |
| C274 | Real and complex meshes carry the same information | `base/mesh.py:MeshSource.compute`, `base/mesh.py:MeshSource.to_field` | Dft: round_trip, plane_wave | R1 R2 FE | proved |
| C275 | The correlation function is an average over pairs of cells | `algorithms/fftcorr.py:FFTCorr.run`, `algorithms/fftpower.py:FFTBase._compute_3d_power` | Dft: correlation, fluctuations | R1 R2 FE | proved |
| C276 | Properties of the 3-d power | `algorithms/fftpower.py:FFTBase._compute_3d_power` | Dft: power, plane_wave | R1 R2 FE | proved |
| C277 | Interlacing removes the odd images | `source/mesh/catalog.py:CatalogMesh.to_real_field` | Dft: images, modes | R1 R2 FE | proved |
| C278 | Interlacing keeps waves at the Nyquist frequency | `source/mesh/catalog.py:CatalogMesh.to_real_field` | Dft: nyquist_refuted | R1 R2 FE | partial |
| C279 | Reconstruction displacements solve the linear continuity equation | `algorithms/fftrecon.py:FFTRecon._compute_s` | Rec: continuity, mean, divisors | R1 R2 FE | proved |
| C280 | Reconstruction of a plane wave | `algorithms/fftrecon.py:FFTRecon._compute_s` | Rec: plane_wave | R1 R2 FE | proved |
| C281 | The power measured from a linear mesh is the input power | `source/mesh/linear.py:LinearMesh.to_complex_field`, `mockmaker.py:gaussian_complex_fields`, `algorithms/fftpower.py:FFTBase._compute_3d_power` | DftLin: measured, unitary | R1 R2 FE | proved |
| C282 | Reconstruction recovers the displacement of a Gaussian mock | `algorithms/fftrecon.py:FFTRecon._compute_s`, `mockmaker.py:gaussian_complex_fields` | DftLin: mock | R1 R2 FE | proved |
| C283 | Columns of catalog classes | `base/catalog.py:column`, `base/catalog.py:ColumnFinder`, `base/catalog.py:CatalogSourceBase.__getitem__`, `base/catalog.py:CatalogSourceBase.get_hardcolumn` | Tom: columns, class_column, own_column, no_column | - | proved |
| C284 | A column is a default column when its definition says so | `base/catalog.py:ColumnFinder`, `base/catalog.py:CatalogSourceBase.__getitem__` | Tom: default_flag_refuted | - | partial |
| C285 | Columns can be given another name than their function | `base/catalog.py:column`, `base/catalog.py:CatalogSourceBase.get_hardcolumn` | Tom: named_columns_unreadable, named_columns_refuted | - | partial |
| C286 | to_mesh uses its arguments and the catalog's attrs | `base/catalog.py:CatalogSourceBase.to_mesh`, `base/mesh.py:MeshSource.__init__`, `source/mesh/catalog.py:CatalogMesh.__init__` | Tom: to_mesh, made, refused | - | proved |
| C287 | to_mesh refuses missing columns with ValueError | `base/catalog.py:CatalogSourceBase.to_mesh` | Tom: missing_position, missing_error_refuted | - | partial |
| C288 | The resampler can be named in either case | `source/mesh/catalog.py:CatalogMesh.__init__`, `source/mesh/catalog.py:get_compensation` | Tom: lower_case, upper_case_refuted | - | partial |
| C289 | Meshes of several species | `source/catalog/species.py:MultipleSpeciesCatalog.__init__`, `source/catalog/species.py:MultipleSpeciesCatalog.to_mesh`, `source/catalog/species.py:check_species_metadata` | Tom: species_mesh, species_made, species_attrs | - | proved |
| C290 | BoxSize is that of a species for all names of species | `source/catalog/species.py:check_species_metadata`, `source/catalog/species.py:MultipleSpeciesCatalog.__init__` | Tom: dotted_names_refuted | - | partial |
| C291 | Unknown resamplers are refused for several species | `source/catalog/species.py:MultipleSpeciesCatalog.to_mesh` | Tom: unknown_resampler_refuted | - | partial |
| C292 | Weights of FKP catalogs | `algorithms/convpower/catalog.py:FKPWeightFromNbar`, `algorithms/convpower/catalog.py:FKPCatalog.__init__` | Fkp: weights, others, accepted | - | proved |
| C293 | Meta-data of the convolved power | `algorithms/convpower/fkp.py:ConvolvedFFTPower._compute_multipoles`, `algorithms/convpower/fkp.py:ConvolvedFFTPower.normalization`, `algorithms/convpower/fkp.py:ConvolvedFFTPower.shotnoise`, `algorithms/convpower/fkp.py:copy_meta`, `algorithms/convpower/catalogmesh.py:FKPCatalogMesh.to_real_field` | Fkp: meta | - | proved |
| C294 | The shot noise of data and randoms is in the meta-data | `algorithms/convpower/fkp.py:ConvolvedFFTPower.run`, `algorithms/convpower/catalogmesh.py:FKPCatalogMesh.to_real_field` | Fkp: species_shotnoise_refuted | - | partial |
| C295 | The meta-data of the power do not depend on those of the catalogs | `base/mesh.py:MeshSource._paint_XXX`, `algorithms/convpower/fkp.py:copy_meta` | Fkp: names_refuted | - | partial |
| C296 | The FKP field sums to zero | `algorithms/convpower/catalogmesh.py:FKPCatalogMesh.to_real_field`, `algorithms/convpower/catalogmesh.py:FKPCatalogMesh.weighted_total`, `algorithms/convpower/catalogmesh.py:FKPCatalogMesh.TotalWeight` | Fkp: total, zero_mean | - | proved |
| C297 | Sources of the convolved power | `algorithms/convpower/fkp.py:_cast_mesh`, `algorithms/convpower/fkp.py:is_valid_crosscorr`, `algorithms/convpower/fkp.py:ConvolvedFFTPower.__init__`, `algorithms/convpower/catalogmesh.py:FKPCatalogMesh.recenter_box` | Fkp: refused, inputs, meshes, box | - | proved |
| C298 | The field of the joint box is a density in that box | `algorithms/convpower/catalogmesh.py:FKPCatalogMesh.recenter_box`, `algorithms/convpower/catalogmesh.py:FKPCatalogMesh.to_real_field` | Fkp: joint_cells_refuted | - | partial |
| C299 | The power of data without randoms has a finite shot noise | `algorithms/convpower/fkp.py:ConvolvedFFTPower.shotnoise`, `algorithms/convpower/catalogmesh.py:FKPCatalogMesh.to_real_field` | Fkp: no_randoms_refuted | - | partial |
| C300 | compensated decides about the compensation | `algorithms/convpower/fkp.py:ConvolvedFFTPower._compute_multipoles`, `algorithms/convpower/fkp.py:get_compensation` | Fkp: compensated_refuted | - | partial |
| C301 | Meshes of FKP catalogs | `algorithms/convpower/catalog.py:FKPCatalog.to_mesh`, `algorithms/convpower/catalogmesh.py:FKPCatalogMesh.__init__` | Fkp: to_mesh | - | proved |
| C302 | The given BoxCenter is used | `algorithms/convpower/catalogmesh.py:FKPCatalogMesh.__init__`, `source/mesh/catalog.py:CatalogMesh.__init__` | Fkp: center_refuted | - | partial |
| C303 | Halos of friends-of-friends groups | `algorithms/fof.py:FOF.to_halos`, `algorithms/fof.py:fof_catalog`, `algorithms/fof.py:centerofmass` | Hct: groups, refused | - | proved |
| C304 | All halos are handed to halotools | `source/catalog/halos.py:HaloCatalog.__init__`, `source/catalog/halos.py:HaloCatalog.to_halotools` | Hct: tables, refused | - | proved |
| C305 | Halo columns follow the masses | `source/catalog/halos.py:HaloCatalog.Radius`, `source/catalog/halos.py:HaloCatalog.Concentration`, `source/catalog/halos.py:HaloCatalog.VelocityOffset`, `source/catalog/halos.py:HaloCatalog.Mass`, `source/catalog/halos.py:HaloCatalog.to_halotools`, `base/catalog.py:CatalogSourceBase.__getitem__` | Hct: set | - | proved |
| C306 | Halo columns follow the masses in selections | `source/catalog/halos.py:HaloCatalog.Radius`, `base/catalog.py:CatalogSourceBase.get_hardcolumn` | Hct: slice_refuted | - | partial |
| C307 | The table has the columns of its mass definition | `source/catalog/halos.py:HaloCatalog.to_halotools`, `source/catalog/halos.py:HaloCatalog.__init__` | Hct: mdef_refuted | - | partial |
| C308 | Halos for all meta-data | `algorithms/fof.py:FOF.to_halos` | Hct: names_refuted | - | partial |
| C309 | Shot noise is the mean power of objects placed at random | `source/mesh/catalog.py:CatalogMesh.to_real_field`, `algorithms/fftpower.py:FFTBase._compute_3d_power` | Shn: structure, shot_noise, nearest | R1 R2 FE | proved |
| C310 | Mean correlation of objects placed at random | `source/mesh/catalog.py:CatalogMesh.to_real_field`, `algorithms/fftpower.py:FFTBase._compute_3d_power`, `algorithms/fftcorr.py:FFTCorr.run` | Shn: correlation | R1 R2 FE | proved |
| C311 | Cross power has no shot noise | `source/mesh/catalog.py:CatalogMesh.to_real_field`, `algorithms/fftpower.py:FFTBase._compute_3d_power` | Shn: cross | R1 R2 FE | proved |
| C312 | Two meshes of one catalog have its shot noise | `algorithms/fftpower.py:FFTBase._compute_3d_power` | Shn: same_catalog_refuted | R1 R2 FE | partial |
| C313 | The power depends on the objects only | `source/mesh/catalog.py:CatalogMesh.to_real_field`, `algorithms/fftpower.py:FFTBase._compute_3d_power` | Shn: layout, weights, moved | R1 R2 FE | proved |
| C314 | Bounds of the power of objects | `source/mesh/catalog.py:CatalogMesh.to_real_field`, `algorithms/fftpower.py:FFTBase._compute_3d_power` | Shn: bound, lattice | R1 R2 FE | proved |
| C315 | Projected power is a slice of the 3-d power | `algorithms/fftpower.py:ProjectedFFTPower.__init__`, `algorithms/fftpower.py:ProjectedFFTPower.run`, `algorithms/fftpower.py:FFTBase._compute_3d_power` | Prj: slices | R1 R2 FE | proved |
| C316 | Projected power sees the averaged fields only | `algorithms/fftpower.py:ProjectedFFTPower.run` | Prj: columns, moved | R1 R2 FE | proved |
| C317 | Projected power is bounded by the variance | `algorithms/fftpower.py:ProjectedFFTPower.run` | Prj: variance | R1 R2 FE | proved |
| C318 | The order of the axes does not matter | `algorithms/fftpower.py:ProjectedFFTPower.run` | Prj: order | R1 R2 FE | proved |
| C319 | One axis as documented | `algorithms/fftpower.py:ProjectedFFTPower.__init__` | Prj: one_axis_refuted | R1 R2 FE | partial |
| C320 | The zero mode is left out | `algorithms/fftpower.py:ProjectedFFTPower.run` | Prj: zero_mode_refuted | R1 R2 FE | partial |
| C321 | Shot noise of the projected power | `algorithms/fftpower.py:ProjectedFFTPower.run`, `source/mesh/catalog.py:CatalogMesh.to_real_field`, `algorithms/fftpower.py:FFTBase._compute_3d_power` | Prj: shot_noise | R1 R2 FE | proved |
| C322 | Saved results are read back | `algorithms/threeptcf.py:Base3PCF._run`, `algorithms/threeptcf.py:Base3PCF.__getstate__`, `algorithms/threeptcf.py:Base3PCF.__setstate__`, `algorithms/threeptcf.py:Base3PCF.load`, `algorithms/fftpower.py:ProjectedFFTPower.__getstate__`, `algorithms/fftpower.py:ProjectedFFTPower.__setstate__`, `algorithms/convpower/fkp.py:ConvolvedFFTPower.__getstate__`, `algorithms/convpower/fkp.py:ConvolvedFFTPower.__setstate__`, `algorithms/convpower/fkp.py:ConvolvedFFTPower.load`, `algorithms/zhist.py:RedshiftHistogram.__getstate__`, `algorithms/zhist.py:RedshiftHistogram.__setstate__`, `algorithms/zhist.py:RedshiftHistogram.load`, `binned_statistic.py:BinnedStatistic.from_state` | Ser: computed, three, projected, convolved, histogram | - | proved |
| C323 | Bins of the three-point function may be a list | `algorithms/threeptcf.py:Base3PCF._run`, `binned_statistic.py:BinnedStatistic.__init__` | Ser: lists, three_refuted | - | partial |
| C324 | Bins of the redshift histogram may be a list | `algorithms/zhist.py:RedshiftHistogram.run` | Ser: lists, histogram_refuted | - | partial |
| C325 | Angular bins may be a list | `algorithms/convpower/fkp.py:ConvolvedFFTPower.to_pkmu`, `binned_statistic.py:BinnedStatistic.__init__` | Ser: wedges, pkmu_refuted | - | partial |
| C326 | Unknown formats are refused | `algorithms/convpower/fkp.py:ConvolvedFFTPower.load` | Ser: formats, format_refuted | - | partial |
| C327 | Files of old versions | `algorithms/convpower/fkp.py:ConvolvedFFTPower.__setstate_pre000305__`, `algorithms/convpower/fkp.py:ConvolvedFFTPower.load`, `algorithms/convpower/fkp.py:ConvolvedFFTPower.__setstate__` | Ser: old, mixed | - | proved |
| C328 | Columns of text files | `io/csv.py:verify_data`, `io/csv.py:CSVFile.__init__`, `io/csv.py:CSVFile.read`, `io/csv.py:CSVPartition.value` | Cty: open, values | - | proved |
| C329 | Types found from the first rows | `io/csv.py:verify_data`, `io/csv.py:CSVFile.__init__` | Cty: later_rows_refuted | - | partial |
| C330 | Types with other engines | `io/csv.py:CSVFile.__init__`, `io/csv.py:CSVFile.read` | Cty: engine_refuted | - | partial |
| C331 | Skipped lines need not be rows | `io/csv.py:make_partitions`, `io/csv.py:CSVPartition.value` | Cty: skipped_refuted | - | partial |
| C332 | The signature of before 0.2.6 | `cosmology/cosmology.py:check_deprecated_init`, `cosmology/cosmology.py:Cosmology.__init__`, `cosmology/cosmology.py:astropy_to_dict` | Dep: old, mixed | - | proved |
| C333 | Documented defaults with old names | `cosmology/cosmology.py:check_deprecated_init`, `cosmology/cosmology.py:Cosmology.__init__` | Dep: defaults_refuted | - | partial |
| C334 | Cosmologies of astropy objects | `cosmology/cosmology.py:Cosmology.from_astropy`, `cosmology/cosmology.py:astropy_to_dict` | Dep: exists, sets, neutrinos, refuses | - | proved |
| C335 | Keywords in conflict with the astropy object | `cosmology/cosmology.py:Cosmology.from_astropy` | Dep: conflict_refuted | - | partial |
| C336 | Cosmologies are immutable | `cosmology/cosmology.py:Cosmology.from_dict`, `cosmology/cosmology.py:Cosmology.__setstate__`, `cosmology/cosmology.py:Cosmology.__iter__`, `cosmology/cosmology.py:Cosmology.clone`, `cosmology/cosmology.py:Cosmology.__init__` | Dep: immutable | - | proved |
| C337 | Dictionaries given to from_dict | `cosmology/cosmology.py:Cosmology.from_dict`, `cosmology/cosmology.py:Cosmology.__setstate__` | Dep: from_dict_refuted | - | partial |
| C338 | A loop over iterate may be left early | `batch.py:TaskManager.iterate`, `batch.py:TaskManager._get_tasks`, `batch.py:TaskManager.__exit__` | Brk: break_refuted | - | partial |
| C339 | What leaving early does | `batch.py:TaskManager.iterate`, `batch.py:TaskManager._distribute_tasks`, `batch.py:TaskManager._get_tasks` | Brk: waits, others | - | proved |
| C340 | Meshes of another size, previews, and fields of views | `base/mesh.py:MeshSource.compute`, `base/mesh.py:MeshSource._paint_XXX`, `base/mesh.py:MeshSource.preview`, `base/mesh.py:MeshSource.to_real_field`, `base/mesh.py:MeshSource.to_field`, `base/mesh.py:MeshSource.view`, `source/mesh/field.py:FieldMesh` | Prv: resampled, preview, views | - | proved |
| C341 | attrs['Nmesh'] of the field | `base/mesh.py:MeshSource.compute` | Prv: nmesh_refuted | - | partial |
| C342 | normalize=False of a view | `base/mesh.py:MeshSource.to_real_field`, `base/mesh.py:MeshSource.view` | Prv: normalize_refuted | - | partial |
| C343 | Arguments of SimulationBoxPairCount | `algorithms/pair_counters/base.py:verify_input_sources`, `algorithms/pair_counters/base.py:PairCountBase.__init__`, `algorithms/pair_counters/simbox.py:SimulationBoxPairCount.__init__` | Vis: made, refused, comm | - | proved |
| C344 | Catalogs of another box | `algorithms/pair_counters/base.py:verify_input_sources`, `algorithms/pair_counters/simbox.py:SimulationBoxPairCount.__init__` | Vis: mismatch_refuted | - | partial |
| C345 | BoxSize in attrs as a number | `algorithms/pair_counters/base.py:verify_input_sources`, `algorithms/pair_counters/simbox.py:SimulationBoxPairCount.__init__` | Vis: number_refuted | - | partial |
| C346 | BoxSize of the second catalog | `algorithms/pair_counters/base.py:verify_input_sources`, `algorithms/pair_counters/simbox.py:SimulationBoxPairCount.__init__` | Vis: either_refuted | - | partial |
| C347 | Seeds and meta-data of lognormal catalogs | `source/catalog/lognormal.py:LogNormalCatalog.__init__` | Lnc: made, mock | - | proved |
| C348 | attrs['cosmo'] of lognormal catalogs | `source/catalog/lognormal.py:LogNormalCatalog.__init__` | Lnc: cosmo_refuted | - | partial |
| C349 | Field and meta-data of linear meshes | `source/mesh/linear.py:LinearMesh.__init__`, `source/mesh/linear.py:LinearMesh.to_complex_field`, `utils.py:attrs_to_dict`, `cosmology/power/linear.py:LinearPower.attrs` | Lnc: linear | - | proved |
| C350 | attrs of a linear mesh tell its spectrum | `source/mesh/linear.py:LinearMesh.__init__`, `source/mesh/linear.py:LinearMesh.to_complex_field` | Lnc: spectrum_refuted | - | partial |
| C351 | Repeated run() of correlation functions | `algorithms/paircount_tpcf/tpcf.py:BasePairCount2PCF.__init__`, `algorithms/paircount_tpcf/tpcf.py:BasePairCount2PCF.run`, `algorithms/paircount_tpcf/tpcf.py:SimulationBox2PCF.run`, `algorithms/paircount_tpcf/tpcf.py:SurveyData2PCF.run`, `algorithms/paircount_tpcf/tpcf.py:_restrict_to_spherical_volume` | Rer: natural, angular, randoms, estimate | - | proved |
| C352 | Correlation functions can be run again | `algorithms/paircount_tpcf/tpcf.py:BasePairCount2PCF.run`, `algorithms/paircount_tpcf/estimators.py:LandySzalayEstimator` | Rer: again_refuted | - | partial |
| C353 | BoxSize as keyword in angular mode | `algorithms/paircount_tpcf/tpcf.py:BasePairCount2PCF.run`, `algorithms/paircount_tpcf/tpcf.py:_restrict_to_spherical_volume` | Rer: angular_refuted | - | partial |
| C354 | A catalog with itself | `algorithms/paircount_tpcf/tpcf.py:BasePairCount2PCF.run`, `algorithms/pair_counters/base.py:PairCountBase.__init__` | Rer: same_refuted | - | partial |
| C355 | Arguments of SurveyDataPairCount and SurveyData3PCF | `algorithms/pair_counters/mocksurvey.py:SurveyDataPairCount.__init__`, `algorithms/threeptcf.py:SurveyData3PCF.__init__`, `algorithms/pair_counters/base.py:verify_input_sources` | Arg: pairs, pairs_refused, comm, triples | - | proved |
| C356 | Arguments of SimulationBox3PCF | `algorithms/threeptcf.py:SimulationBox3PCF.__init__`, `algorithms/threeptcf.py:Base3PCF.__init__` | Arg: made, refused | - | proved |
| C357 | Arguments of CylindricalGroups | `algorithms/cgm.py:CylindricalGroups.__init__`, `algorithms/cgm.py:CylindricalGroups.run` | Arg: made, refused, source | - | proved |
| C358 | BoxSize keyword of CylindricalGroups | `algorithms/cgm.py:CylindricalGroups.__init__` | Arg: keyword_refuted | - | partial |
| C359 | CylindricalGroups leaves its source alone | `algorithms/cgm.py:CylindricalGroups.run` | Arg: source_refuted | - | partial |
| C360 | Automatic bins follow Scott's rule | `algorithms/zhist.py:scotts_bin_width` | Sct: scott, bins, ranks | R1 R2 FE CL | proved |
| C361 | Automatic bins of equal redshifts | `algorithms/zhist.py:scotts_bin_width`, `algorithms/zhist.py:RedshiftHistogram.run` | Sct: same, width_refuted | R1 R2 FE CL | partial |
| C362 | Which tasks can be handed out | `batch.py:TaskManager._distribute_tasks`, `batch.py:TaskManager.iterate`, `batch.py:TaskManager.map` | Itb: sequence, others | - | proved |
| C363 | Tasks may be any iterable | `batch.py:TaskManager.iterate`, `batch.py:TaskManager._distribute_tasks` | Itb: iterable_refuted | - | partial |
| C364 | Initial condition in radiation domination | `cosmology/background.py:RadiationDominated.get_initial_condition`, `cosmology/background.py:Perturbation.ode` | Rad: initial | R1 R2 FE CL | proved |
| C365 | Growth factors are positive | `cosmology/background.py:RadiationDominated.get_initial_condition`, `cosmology/background.py:Perturbation.__init__`, `cosmology/background.py:Perturbation.Gp` | Rad: start, positive_refuted | R1 R2 FE CL | partial |
| C366 | Attributes of a cosmology | `cosmology/cosmology.py:Cosmology.__getattr__`, `cosmology/cosmology.py:Cosmology.__setattr__`, `cosmology/cosmology.py:Cosmology.__setstate__`, `cosmology/cosmology.py:Cosmology.sigma8`, `cosmology/cosmology.py:Cosmology.Omega0_cb` | Dlg: delegates, members | - | proved |
| C367 | Setting attributes does not change a cosmology | `cosmology/cosmology.py:Cosmology.__setattr__`, `cosmology/cosmology.py:Cosmology.__getattr__`, `cosmology/cosmology.py:Cosmology.sigma8` | Dlg: immutable_refuted, engine | - | partial |
| C368 | replacesorted | `algorithms/fof.py:replacesorted` | Rps: values, element | - | proved |
| C369 | Output array of replacesorted | `algorithms/fof.py:replacesorted` | Rps: out, out_refuted | - | partial |
