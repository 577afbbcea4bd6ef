# Formal model of parcels: design

The model is written in Rocq (Coq 8.16.1), standard library only. Source lines cited in the model are relative to `/repo`.
The code is read as text; it is never run.

Each property of `properties.jsonl` has one or more theorems, listed in `MANIFEST.json`. Where the full statement is
false of the code, a theorem `…_refuted` exhibits a counterexample and the theorems proved beside it
(`…_partial` when a hypothesis excludes reachable cases) say for which inputs the property holds.

## Layout

`rocq/theories` is flat. For each area `X`:

* `XModel.v`  – definitions that transcribe the code, each with a citation. No proofs.
* `XSpec.v`   – the independent specification used in the theorem statements.
* `XProofs*.v` – lemmas.
* `XProps.v`  – only property theorems (closed with `exact lemma`), an `Example` showing that the hypotheses are met by a
  concrete case, `Print Assumptions`, and the refutations.

## Modelling conventions

* **Numbers.** Particle time, dt, schedule instants: `Z` ticks (a finite set of float64 numbers are all
  multiples of one power of two, so any one run can be scaled to integers). The tolerances of `np.isclose(x, 0)`
  and of `abs(a-b) < tol` are parameters. Coordinates, field data, interpolation weights: `Q`
  (exact rationals, computable, no axioms). `R` is used only where `cos`, `sqrt`, `exp` or derivatives occur.
  Floating-point rounding and NaN/inf are not modelled (infinite periods are `None`).
* **Exceptions** are values (`Err e`, `None`), never partial functions with a default that looks like a result. Reads outside
  an array are errors too (Python: IndexError, C: undefined behaviour).
* **Loops** that are not structurally recursive take fuel and return `None`/`OutOfFuel` on exhaustion;
  theorems either show that the fuel given suffices or have a successful result as hypothesis.
* **External code** (user kernels, recovery kernels, forcing-file contents, random numbers) are
  universally quantified function arguments (section variables, closed over at the end of the section).

## Properties: what is modelled and how it is proved

| id | files | model | method |
|----|-------|-------|--------|
| C01–C06 | Coll | `lastID` counter, structure-of-arrays store with a heap of dicts (aliasing visible), add, remove, lookup | refinement to lists of records, invariants over sessions of operations |
| C07–C14 | KLoop | per-particle loop of `execute_python`, the generated C loop, `Kernel.execute` with recovery rounds; the kernel is an oracle | induction on the loop and on rounds; simulation of the set run by single runs; equality of the two loops |
| C15–C17 | Sched | window loop of `BaseParticleSet.execute` emitting events | induction on remaining time; closed form of event times; events sorted by time and, at one time, by kind |
| C18–C20 | Out | `toDictionary`, `write`, `read_from_npy`, `export` | history refinement |
| C21–C26 | Idx, Time, Interp | Python and C index search, time index, interpolation, sampling | induction on axes, algebra over `Q` |
| C27 | Land | inverse-distance land interpolation, Python and C | case analysis on masks, algebra |
| C28 | Sum | summed and nested fields, both modes | induction on the list of components |
| C29 | Chunk | block id / cell lookup in C, `get_block`, `chunk_setup`, the reload protocol | arithmetic on mixed radix indices, invariant over histories |
| C30 | Defer | `Grid.computeTimeChunk`, `FieldSet.computeTimeChunk` with frame contents | invariant over request sequences |
| C31 | Halo | list slicing and concatenation on arrays of any size | list reasoning; linked to the index search of C21 |
| C32, C33 | Gen | kernel AST, Python meaning, the generator, a C grammar and parser, meaning of C | structural induction, simulation |
| C34, C35 | Adv, AdvGen | kernels as functions of a velocity function; the same kernels as programs of Gen | algebra and derivatives over `R` |
| C36 | Unit | converters and the C text they write (parsed by the grammar of Gen) | field arithmetic |
| C37 | CGrid | C-grid formula, both modes | field arithmetic, geometry of convex cells |
| C38 | Gset | `add_grid`, `dimrange` | induction on the list of fields |
| C39 | Sphere | longitudes round the sphere: search and samples, both modes | walk round the axis with a distance to the target cell |
| C40 | Curv | curvilinear search: soundness, starting cell, affine grids from any cell, samples | algebra of the bilinear map; distance to the target cell decreases |
| C41 | Slev | s levels: columns, errors, value, modes, linear fields, flat levels | levels at a place are monotone, so the cell around z is unique |
| C42 | Restart | set made from an exported file: rows, values, ids, default time | matrices of all variables share rows and padding; refinement to the log of C18 |
| C43 | Split | windows and calls cut at whole steps give the same particles | per-particle course relation; refinement of the loop of execute to unit steps with releases; both directions |
| C44 | Merge | calling a sum is calling its kernels in order; its C function declares each local once | fuel monotonicity, sequencing, non-interference of unassigned locals (definite assignment); counting for the declarations |
| C45 | Rand | ranges, shares and symmetry of uniform, randint, normal, exponential and von Mises numbers | exact algebra of the sampling formulas; induction over rejections; counting residues for randint |
| C46 | Diff, DiffGen | mean, variance and covariance of one diffusion step; agreement of the three kernels; both modes | linearity of averages of polynomials; stepping the kernel programs and C33 |
| C47 | Ana | AdvectionAnalytical: the path through a cell is the exact solution, unique, inside the cell, with the right time | closed solution of r' = F(r), its monotonicity; derivation of the velocity in a rectangle; a mean value argument for uniqueness |
| C48 | Run | the advection kernels in the particle loop inside the loop of pset.execute: exact runs, error bounds, convergence, arrival | invariants of a run carried through both loops; Lipschitz bound and consistency of one step; discrete Gronwall with exp; mean value theorem |
| C49 | Meth | methods nearest, tracer, B-grid velocity and W, linear with POP and MOM5 layers, both modes | value of each frame from the cell found; nearest node by monotonicity; uniqueness off nodes and middles; carried indices by induction over the history |
| C50 | Cons | making a particle set and its class, division over processes | induction over the variables with the set of those filled; selection by label commutes with every step |
| C51 | Traj | the file of a run: rows, states at output times, states at deletion; what steps keep holds in the file; RK4 positions in it | the run with its log of writes projects to the run of C43/C48; each write is the state of a run cut at that time; reading back by the log theorems of C18 |
| C52 | Date | time origins: converters, stamps of frames, check_complete, sampling by date, default times, dates as arguments, runs counted from another origin | axes that differ by a constant locate and wrap alike; the loops of a run commute with a shift of all times |
| C53 | Crash | temporary directories as sequences of file operations, a process dying after any of them, conversion and export of several directories | the state on disk after n operations is that of the returned writes, plus files nobody refers to; the log theorems of C18 for the joint log |
| C54 | Hex | jacobian3D_lin, jacobian3D_lin_face, phi1D_quad, the seven-step flux interpolation, its C counterpart, interpolation in time | the gradient of the trilinear map gives area vectors as cross products of edge lines; along the normal the three contributions cancel but one; half cells by bilinearity |
| C24 | Period | periods longer than the data: the time and frame added, grid.tdim apart from grid.time | the wrapped time is unique; the search loops on its own argument |
| C55 | Read | Field.reshape, construction from arrays, from_netcdf at once and deferred, subsets, coordinates | arrays as shapes with index functions; each step as a map of indices; what is in memory after any sequence of loads |
| C56 | Release | from_line, from_field and density | the cumulated probabilities cut [0, 1) into intervals, one for each cell; row-major numbering of cells; the density is a fold whose sum is the total weight |
| C57 | Rk45 | runs with AdvectionRK45: steps, modes, arrival, path | the loops of both modes over real times; every pass extends a chain of accepted steps; repetitions halve dt, so a lower bound for accepted steps bounds their number |
| C58 | Save | Field.write, FieldSet.write and from_parcels | row-major reshape has an inverse; the file read is an instance of the series of C55 and its times are those of C52; file names are injective in field names |
| C59 | Tog | FieldSet.from_netcdf with several variables: wildcards, shared grids, shared file lists, field types | invariant over the variables read so far: coordinates and dates of a field are a function of its files, and what is shared has equal files; reading with the grid and files of an equal field gives the same field |
<!-- more properties -->

## What is modelled, and what is not

| source | modelled | not modelled |
|--------|----------|--------------|
| `particlesets/collectionsoa.py` | `__init__` with MPI partition, construction of ids, add_same/add_multiple/+=, remove by position, mask, id, lookup by id, per-particle writes, `toDictionary` | `add_single` from accessors, `merge`/`split` (not implemented there), ctypes structs, `set_variable_write_status` |
| `particlesets/particlesetsoa.py`, `baseparticleset.py` | `execute` (windows, releases, output, callbacks), repeated release, `__init__`, `from_particlefile` | `from_list`, `show`, progress bar |
| `kernel.py` | execute, execute_python, recovery loop, reload of chunks before execute_jit, merge | compilation, analytical advection variant of the loop |
| `compilation/codegenerator.py` | expression and statement translation, tuple splitting, field samples, loop generator | local arrays, print, custom C functions, min/max, ParticleStruct fields' names, C `const` clashes |
| `field.py` | eval, time_index, vertical z and s, rectilinear and curvilinear search, interpolators linear / nearest / tracer / B-grid / land / C-grid 2D and W with POP and MOM5 layers, add_periodic_halo, reshape of halos, chunk handling, computeTimeChunk, summed and nested fields | curvilinear s grids, lazily read depths, `add`, `show` (`write`: C58) |
| `grid.py` | computeTimeChunk, add_periodic_halo | rest of constructors, `lonlat_minmax` on curvilinear grids |
| `gridset.py` | all of it | – |
| `fieldset.py` | computeTimeChunk, add_periodic_halo, add_field (grid set), check_complete (time origins), write (C58), from_netcdf (C59) | the other readers |
| `particlefile.py` | write, read_from_npy, export | netCDF storage, attributes |
| `kernels/advection.py` | EE, RK4, RK4_3D, RK45, Analytical | – |
| `kernels/advectiondiffusion.py`, `rng.py`, `include/random.h` | AdvectionDiffusionM1, AdvectionDiffusionEM, DiffusionUniformKh; the draws of both modes | the generators themselves |
| `tools/converters.py` | unit converters, TimeConverter | calendars (numpy, cftime) |
| `include/index_search.h` | vertical z and s, rectilinear, curvilinear, reconnect, time index | curvilinear grids with s levels |
| `include/parcels.h` | loop helpers, interpolations linear / nearest / tracer / B-grid / land / C-grid 2D and W with POP and MOM5 layers, getCell, temporal interpolation | — |
| `scripts/convert_npydir_to_netcdf.py`, temporary directories of `particlefile.py` | order of file operations, crash at any of them, conversion | file names, losing power, simultaneous use of one directory |
| `tools/interpolation_utils.py`, 3D part of the C-grid interpolation in `field.py` and `parcels.h` | C54 | lazily read depths |
| `field.py` 147-171 (time_periodic) | C24 (Period) | np.isclose is equality; deferred loading in C30 |
| `fieldfilebuffer.py`, `field.py` 158-176, 402-434, 490-540, 1307-1379 | C55 | dask and chunked readers, timestamps argument, xarray |
| `baseparticleset.py` from_line, from_field; `particlesetsoa.py` monte_carlo_sample, density; `field.py` calc_cell_edge_sizes, cell_areas | C56 | numpy.random's generator, summed and nested fields, densities on spherical meshes but for the area |
| `advection.py` AdvectionRK45 within `kernel.py` execute_python/execute and `codegenerator.py` LoopGenerator | C57 | other kernels beside it, recovery kernels, rounding |
| `field.py` write; `fieldset.py` write, from_parcels | C58 | rounding to single precision, chunks, indices and wildcards on reading, MPI |
| `fieldset.py` 273-417, `field.py` 207-252, 309-452 | C59 | chunks, timestamps argument, coordinates as sheets, lazily read depths |
<!-- more coverage -->

## Where the code and the English statements disagree

Each item with a theorem name is proved; the others were found while reading and are outside the model.

* Ids: creating an empty set resets the counter (`ids_unique_refuted`). Adding into an empty set shares storage with the
  argument and keeps its "sorted" flag (`add_to_empty_shares_storage_refuted`, `lookup_after_add_to_empty_refuted`); lookups of
  several ids miss or raise (`lookup_many_refuted`, `lookup_many_misses_refuted`).
* Kernel loop: an exception in one particle stops the others (`stop_couples_refuted`, `deleted_gone_refuted`); `update_next_dt` in a
  failing call leaks into the next call in one mode only (`modes_agree_refuted`); a zero-length run repeats the kernel of every particle after one
  failure (`zero_run_once_refuted`). Outside the model: a truncated last step leaves `particle.dt` shortened; StopExecution only leaves
  `kernel.execute`, so the schedule goes on; a kernel that returns Evaluate stalls; `particle.dt = 0` is skipped for ever.
* Schedule: `outputdt = 0` never ends (`zero_outputdt_never_ends_refuted`); releases are skipped when the direction changes
  (`releases_backward_skipped_refuted`, `zero_run_releases_refuted`) and start where the kernel has moved the originals (`batches_moved_refuted`).
* Output: two records of a particle at one time break the export (`export_there_and_back_refuted`, `export_once_in_path_refuted`);
  see C19 and C20 for the deletions lost.
* Sampling: ends of periods differ between the modes (`modes_sample_same_refuted`, `sample_periodic_jit_refuted`); the C search for the time index
  may recurse for ever (`time_search_ends_refuted`).
* Land: transposed masks and nodes in Scipy mode, land nodes in JIT mode (`land_average_refuted`, `land_node_3D_refuted`, `land_node_jit_refuted`).
* Summed and nested fields: see C28; `+` changes its left operand (`addition_fresh_refuted`).
* Chunks of size one and one-row fields (`chunk_size_one_refuted`, `chunk_one_row_refuted`), JIT after Scipy (`chunk_after_python_refuted`).
* Deferred loading: backward starts and periodic series (five refutations in DeferProps).
* Halos: components of summed and nested fields keep their size (`halo_groups_refuted`); a second halo on deferred fields is refused
  (`halo_twice_refuted`, `halo_again_refuted`). Outside the theorems: `halosize=0` doubles the array (a slice `[-0:]`); one-longitude fields raise.
* Code generation: missing parentheses, integer division, remainders, short circuits, loops (see C32, C33).
* RK45: dt has no lower bound and repeated halving ends with a particle whose `isclose(dt, 0)` makes the loop skip it (C57, `rk45_arrives_refuted`).
* Units: the latitude argument of the C text is not parenthesised (`summed_latitude_refuted`).
* C-grid: the JIT code moves longitudes by 360 on flat meshes too (`wide_flat_cell_refuted`); on the sphere the meridional velocity
  is not linear (`meridional_velocity_linear_refuted`). Outside the model: MITGCM in JIT mode reads row or column -1 when yi or xi is 0 (value unused).
* Grid set: `mesh`, `defer_load` are not compared and times are compared to 1e-5 relative (`mesh_and_loading_refuted`, `exact_time_axis_refuted`);
  'auto' chunks list a shared grid twice (`auto_grid_twice_refuted`); dict chunks after a grid without chunks raise (`chunks_after_none_refuted`).
* Spherical meshes: in Scipy mode a longitude in the gap of a grid across 180 degrees, or east of a zonally periodic grid, raises
  IndexError (`sphere_gap_refuted`, `halo_east_refuted`); on a closed circle the JIT value at -180 depends on the previous cell
  (`closed_circle_refuted`); cells wider than 180 degrees are never entered in JIT mode (`wide_cell_refuted`). A longitude such as 190 on a
  grid from 160 to -170 is out of bounds in both modes, since the bounds are the smallest and largest longitude (part of C39).
* Curvilinear search: xsi is wrong in sheared cells whose rows run due north (`north_rows_refuted`); when the quadratic of a cell has no
  root the eta of the previous cell is kept and a wrong cell may be returned (`stale_refuted`); only one root is tried, so cells with nodes
  from north to south and non-parallel sides are never found (`south_refuted`); `reconnect_bnd_indices` receives the mesh name, which is
  always true, and outside a flat grid Scipy mode ends with IndexError (`outside_index_refuted`). Outside the model: NaN coordinates
  become relative coordinate 0 in Scipy mode (`max(0., nan)`), an error in JIT mode; `populate_indices` may set the last row or column.
* s grids of one column or row: JIT mode reads the depth of the next column or row, which does not exist; at the last level of the last row
  this is beyond the array (`one_column_refuted`; the value read has weight 0 for tracers, weight 1 for B-grid fields).
* Restart: the id counter is set back, so later releases can reuse the ids of particles of the file that were deleted before the restart
  (`restart_reuses_ids_refuted`) or those of sets that are alive (`restart_shares_ids_refuted`). A record of a particle whose release is within
  half a time step after the last write is the latest of the file: the default restart then holds this particle only
  (`restart_early_record_refuted`); one recorded twice before its release is restarted twice (`restart_twice_refuted`).
* A step shortened to end at an output, release or forcing time shortens all later steps of the call: particle.dt keeps the shortened value
  until the next `pset.execute` (`off_step_output_refuted`). A particle released between two steps is cut at every output and takes ever
  shorter steps (`off_step_start_refuted`).
* Sums of kernels: a kernel that reads a local it never sets raises alone but in a sum finds the value another kernel left
  (`left_over_local_refuted`). A local called `tol` or `output_time` is never declared in C (`reserved_local_refuted`). `array_vars` is an
  attribute of the class: after one kernel with an array `u`, a local `u` of any later kernel of the process is not declared
  (`array_of_earlier_kernel_refuted`); two kernels with an array `u` cannot be added (`array_in_both_refuted`). Read but not modelled: names
  in a sum are looked up in the main script's globals rather than in the modules the kernels come from, and the sum's function is stored
  there under the joined name; the second kernel's argument names are dropped; a c_include given to both kernels is included twice.
* Random numbers: `randint(low, high)` never gives `high`, with `low > high` gives numbers above both (`randint_swapped_refuted`), with
  `low = high` divides by zero. In single precision `(float)RAND_MAX` is 2^31, so x1 = x2 = 0 can occur in `normalvariate` and gives NaN;
  in exact arithmetic RAND_MAX is odd and it cannot. `vonmisesvariate` ignores mu for kappa up to 1e-6. Both modes call the
  same C functions (Scipy mode through rng.py).
* Diffusion: for dt < 0 `AdvectionDiffusionM1` loses the drift along the slope of the diffusivity (the increment's variance is |dt|, so
  dWx**2 + dt has mean 0), unlike `AdvectionDiffusionEM` (`milstein_backward_refuted`). When Kh_zonal is a sum of fields the C text of
  2 * Kh_zonal doubles the first field only (`summed_diffusivity_refuted`). Both gradient kernels sample dres to all sides, so a particle
  nearer than dres to the edge of the grid is reported out of bounds although it is inside.
* `AdvectionAnalytical` has many corners. The direction is applied twice when the target face is chosen, so backward runs head for the
  wrong face and leave the cell (`backward_in_cell_refuted`). On spherical meshes the time is counted with the area of the cell at the first
  latitude (`spherical_time_refuted`), and longitudes are compared with the latitude (advection.py 171), so that a particle at rest at 310.5 E,
  10.5 N ends at -49.5 (`resting_longitude_refuted`). A product of distances below 1e-10 counts as 'never reaches the face', so a particle
  next to a stagnant face runs out of the cell (`stagnant_face_refuted`), as does one within 1e-10 of the western, southern or upper face it is
  heading for (`near_face_refuted`). A difference of fluxes of exactly 1e-10 raises TypeError (`flux_difference_refuted`). Steps are limited by the
  time since the last frame, not the time to the next one, so they can pass it (`next_frame_refuted`), and backward not limited at all. In
  three dimensions U and V are those of level zi+1, while fieldset.UV uses level zi (`horizontal_level_refuted`). The shift to the next cell looks
  at the first frame whatever the time, and gridindexingtype 'mitgcm' is ignored.
- **Interpolation methods differ between the modes** (C49). Half way between two nodes `nearest` takes the lower node in Scipy mode and the upper in JIT mode. In the lowest layer of POP JIT mode takes `nearest` one level too high (the cell is read from `zi-1`, meant for the `bottom` routines), and a POP field of two levels reads level -1. In the surface layer of MOM5 (`zi = -1`) Scipy mode reads `data[-1]`, the lowest level, for tracers, `nearest` and `linear`. A particle that visited that layer and then is exactly at the first level makes JIT mode read `depth[-1]`. A tracer on a face has in JIT mode the value of the cell the particle came from. `bgrid_w_velocity` with MITgcm indexing reads the north-east corner in Scipy mode and the south-west in JIT mode; on one level Scipy mode raises RuntimeError and JIT mode gives a value. A uniform POP field is not uniform when interpolated linearly in the lowest layer.
- **Initial values** (C50). Variables are filled in the order of the particle type, 64-bit variables first, into arrays from `np.empty`. A variable with `initial=attrgetter('v')` that comes before `v` in that order is a copy of uninitialised memory; a `float64` copy of a `float32` variable always is. A misspelt name gives 0, since the collection answers `False` for unknown attributes. `pid_orig` of one entry gives all particles the same id. With MPI only the largest label in `partitions` is checked: a particle with a negative label is in no process.
- **Time origins** (C52). `check_complete` moves `time_full` only for grids loaded later. A series in memory whose origin differs from that of the FieldSet keeps `time_full` where it was: default release and end times are wrong (`default_times_in_memory_refuted`), a time-periodic field has the value of another time in Scipy mode, and in JIT mode `search_time_index` calls itself without end (`periodic_in_memory_refuted`). Grids of one frame are not moved at all, so without extrapolation such a field is found only at the relative time of its own origin (`single_frame_refuted`). `fulltime` cuts numpy dates to whole seconds (`parts_of_seconds_refuted`). Equal time stamps in the files end in an IndexError instead of the AssertionError meant for them (`repeated_stamps_refuted`). The check that refuses dates as release times for a FieldSet without dates tests the truth of a converter object and never strikes (`undated_release_refuted`). Outside the model: `Field.advancetime` calls `isinstance` with one argument, so `FieldSet.advancetime` always raises a TypeError.
- **Crash while writing** (C53). `dump_psetinfo_to_npy` overwrites `pset_info.npy` in place in every call of write. A process that dies between opening and saving it leaves an empty file, and `export` and `parcels_convert_npydir_to_netcdf` raise although all data files are there (`returned_writes_lost_refuted`); one such directory, or one of a process that has not written yet, stops the conversion for all processes (`unreadable_directory_stops_conversion`). A copy under another name followed by a rename would avoid it.
- **C-grids with s-levels** (C54). Levels that move in time: Scipy mode takes the depths of the first time in memory, JIT mode those of the time index, so the modes differ (`moving_levels_3d_refuted`). Depths that decrease with the index, which the search accepts, reverse u and v everywhere (`decreasing_levels_3d_refuted`). `gridindexingtype='mitgcm'` is not looked at (`mitgcm_3d_refuted`). If more flows into a cell than out of it, the surplus is spread over all directions: with U = V = 0 on all faces particles move sideways (`unbalanced_box_3d_refuted`).
- **time_periodic longer than the data** (C24). Field.__init__ adds the first frame once more at `time[0] + time_periodic`, but `grid.tdim` keeps the number of frames given. So for fields in memory the added frame is never read: between the last time and the end of the period Scipy mode returns the last frame (`scipy_period_refuted`) and the C search for the time index calls itself for ever with the same time (`jit_period_refuted`). `Field.write` reshapes the data to `grid.tdim` frames and fails (C58, `saved_periodic_refuted`).
- **Reading fields** (C55). With deferred loading vmin and vmax are applied after the scaling factor, with immediate loading before it (`limits_and_factor_refuted`); a factor of 0 is ignored by deferred loading (`factor_zero_refuted`). On a grid of several levels data of shape (time, lat, lon) are accepted: the field then has no level axis, Scipy mode raises IndexError and JIT mode reads past the array (`missing_levels_refuted`). Outside the model: times that occur in two files give an IndexError instead of the message of the assertion in `collect_timeslices`.
- **Release and density** (C56). from_field weighs cells by the value of the field only, so a wide cell gets as many particles as a narrow one (`release_per_area_refuted`). A field of several levels raises ValueError (`release_levels_refuted`); the tracer of a C-grid with two levels is taken one column off (`release_two_levels_refuted`), and one with a single row of cells raises, since np.squeeze drops the row (`release_one_row_refuted`). density: weights in a numpy array, which the documentation asks for, raise ValueError (`density_weights_refuted`), an array of the single weight 0 counts as 1 (`density_zero_weight_refuted`); the areas come from np.gradient round the node, so on grids with unequal steps they are not those of the cells (`density_area_refuted`); on curvilinear grids the array has (ydim xdim)^2 entries (`density_shape_refuted`). Outside the model: from_line with a depth that is a numpy number raises AssertionError; density of a summed or nested field fails.
- **Adaptive steps** (C57). Where the velocity jumps, as between data points with nearest-neighbour interpolation, AdvectionRK45 repeats every step with half of dt until dt is within the loop's tolerance of 0; execute then ends normally with the particle where and when it was, and nothing is reported (`rk45_arrives_refuted`). The error estimate can be 0, and dt be doubled, while the water moves any distance (`rk45_estimate_refuted`).
- **Saving and restoring fields** (C58). Fields whose times are numbers that do not start at 0 come back shifted to 0 (`saved_numbers_refuted`). The calendar of cftime dates is not written, so xarray decodes them in the standard calendar: with calendars without leap days later dates come back as other ones (`saved_calendar_refuted`). The interpolation method and allow_time_extrapolation are not written: cgrid_velocity or nearest fields come back linear (`saved_method_refuted`). A curvilinear grid whose rows agree within np.allclose comes back rectilinear with the coordinates of its first row and column (`saved_curvilinear_refuted`). A field set read by from_parcels (deferred by default) cannot be written again before its data are loaded: AttributeError (`saved_again_refuted`). A field with a period longer than its data raises ValueError (`saved_periodic_refuted`). Once a ParticleSet has been made FieldSet.write raises AttributeError at the vector field UV, and fields added after that are not written (`saved_vector_refuted`).
- **Reading several variables** (C59). FieldSet.from_netcdf overwrites its argument fieldtype in the loop: with {'east': 'U', 'north': 'V'} both fields are converted as U (`together_units_refuted`; the test of this option looks at the first field only). A string as fieldtype raises TypeError if it contains the name of a variable (`together_type_refuted`). With dimensions given for each variable and files by dimension, the comparison of lon, lat and depth files is skipped (`if dim in dimensions` looks at the keys of the outer dictionary) and the second variable gets the coordinates of the first (`together_coords_refuted`). A field that shares a grid has the dates of the field that made it, without a check (`together_dates_refuted`); deferred, its first frame can then show its last one (`together_last_refuted`). Files by dimension for one variable and plain files for a later one raise TypeError (`together_mixed_refuted`). The documented form {dim: files} for all variables raises KeyError at the second variable (`together_dims_refuted`).
<!-- more findings -->

## Testing the theorems

`seeded/LOG.jsonl` records each wrong program tried: one definition of the model edited, the dependent files rebuilt, the property theorems that
no longer hold. Theorems that survived an edit that breaks their English claim were tightened (field `theorems_tightened`).

## Trusted base

* Coq's kernel (8.16.1).
* The axioms that `Print Assumptions` lists, all of the standard library: `D` = ClassicalDedekindReals.sig_forall_dec,
  `N` = ClassicalDedekindReals.sig_not_dec, `F` = FunctionalExtensionality.functional_extensionality_dep, `C` = Classical_Prop.classic.
  Only files over `R` use any.
* The reading of the code: no code is executed; the citation next to each definition is the tie to the source.
* The reading of Python, numpy and C themselves as far as the models use them (slices, dict order, integer division, operator precedence).

What `Print Assumptions` lists for each theorem:

<!-- assumptions -->
| file | axioms | theorems |
|---|---|---|
| `CollProps` | none | all 15: ids_unique_partial, ids_unique_refuted, session_refines_records, add_exactly_once, remove_positions_exact, remove_mask_exact, remove_id_exact, remove_positions_twice_refuted, lookup_by_id_exact, lookup_many_partial, lookup_many_refuted, lookup_many_misses_refuted, lookup_after_add_to_empty_refuted, other_sets_untouched, add_to_empty_shares_storage_refuted |
| `KLoopProps` | none | all 20: calls_tile, calls_tile_jit, completed_calls_tile, not_started_untouched, not_started_untouched_jit, failed_call_undone, failed_call_undone_jit, deleted_gone_partial, deleted_gone_jit_partial, deleted_gone_refuted, dispatch, dispatch_jit, particles_independent_partial, particles_independent_jit_partial, stop_couples_refuted, zero_run_once_partial, zero_run_once_jit_partial, zero_run_once_refuted, modes_agree_partial, modes_agree_refuted |
| `SchedProps` | none | all 16: execute_covers, execute_once_one_window, execute_wrong_side, zero_outputdt_never_ends_refuted, writes_exact, writes_no_period, writes_no_file, execute_order, shows_exact, callbacks_exact, releases_exact_partial, releases_backward_skipped_refuted, zero_run_releases_refuted, batches_alike_each_other, batches_original_partial, batches_moved_refuted |
| `OutProps` | none | all 15: export_exact_partial, export_there_and_back_refuted, export_once_in_path_refuted, writes_recorded_partial, write_same_time, deletion_recorded_partial, deletion_at_last_write_refuted, deleted_first_refuted, write_no_error_partial, write_between_steps_refuted, once_written_once_partial, once_export_partial, once_export_ondelete_refuted, once_missing_refuted, once_collision_refuted |
| `IdxProps` | none | all 6: position_in_cell, position_in_cell_jit, outside_error, outside_error_jit, depth_errors, depth_errors_jit |
| `SphereProps` | none | all 13: sphere_found_partial, sphere_found_jit, sphere_outside, sphere_gap_jit, sphere_sampled, sphere_sampled_jit_partial, halo_found_partial, halo_found_jit, halo_gap_jit, sphere_gap_refuted, halo_east_refuted, closed_circle_refuted, wide_cell_refuted |
| `SampleProps` | none | all 20: modes_sample_same_partial, history_indices, history_time_index, modes_sample_same_refuted, sample_value, sample_value_jit_partial, sample_error, sample_error_jit, sample_periodic, sample_periodic_jit_partial, sample_periodic_jit_refuted, time_search_ends_refuted, frame_sample, frame_sample_jit, node_exact, corners_bound, trilinear_exact, faces_agree, frame_time_exact, between_frames |
| `LandProps` | none | all 16: land_average_jit, land_average_jit_3D, land_average_partial, land_average_3D, average_bounds, average_positive, land_average_refuted, land_only_zero, land_node_jit_partial, land_node_jit_3D_partial, land_node, land_node_3D_partial, land_node_jit_refuted, land_node_3D_refuted, land_modes_partial, land_modes_3D_partial |
| `SumProps` | none | all 20: summed_value, summed_error, summed_any_order, addition_components, summed_any_grouping, addition_fresh_refuted, addition_ends_refuted, addition_vector_refuted, summed_vector_jit_partial, summed_vector_error_jit_partial, summed_vector_error_refuted, nested_first_in_bounds_jit, nested_out_of_bounds_jit, nested_first_in_bounds_partial, nested_no_component, nested_out_of_bounds_partial, nested_cases, nested_out_of_bounds_refuted, nested_modes_agree_partial, nested_modes_agree_refuted |
| `ChunkProps` | none | all 6: chunk_cell_partial, chunk_history_partial, chunk_progress_partial, chunk_size_one_refuted, chunk_one_row_refuted, chunk_after_python_refuted |
| `DeferProps` | none | all 13: deferred_values_partial, deferred_forward, deferred_forward_run_partial, deferred_forward_starts_partial, deferred_forward_continues_partial, deferred_backward_run_partial, deferred_backward_starts_partial, deferred_backward_continues_partial, deferred_backward_refuted, deferred_backward_period_refuted, deferred_forward_refuted, deferred_values_refuted, deferred_scipy_sample_refuted |
| `HaloProps` | none | all 10: halo_axis_extended, halo_grid, halo_fieldset_partial, halo_values_inside, halo_values_periodic, halo_values_inside_jit_partial, halo_values_periodic_jit_partial, halo_groups_refuted, halo_twice_refuted, halo_again_refuted |
| `ExprProps` | none | all 12: c_text_read_as_grammar, c_text_unambiguous, expression_partial, subtraction_groups_left, or_under_and_refuted, comparison_in_sum_refuted, comparison_in_comparison_refuted, integer_division_refuted, remainder_refuted, summed_field_in_product_refuted, and_as_number_refuted, short_circuit_sample_refuted |
| `StmtProps` | none | all 11: kernel_partial, kernel_straight_partial, flags_only_record, while_not_entered_refuted, swap_refuted, delete_on_sample_refuted, summed_field_in_test_refuted, after_delete_refuted, sample_in_while_refuted, sample_before_pass_refuted, power_assignment_refuted |
| `AdvProps` | CDFN | euler_exact, euler_first_order, rk4_exact, rk4_fourth_order, rk4_3d_exact, rk4_3d_fourth_order |
| `AdvProps` | DF | rk4_taylor, lin_deriv_is_derivative, euler_in_both_modes, rk4_in_both_modes, rk4_3d_in_both_modes, failed_sample_moves_nothing |
| `AdaptProps` | DFN | rk45_accepts_within_tolerance, rk45_repeats |
| `AdaptProps` | CDFN | rk45_time_fourth, rk45_time_fifth, rk45_exact, rk45_orders |
| `UnitProps` | DFN | conversion_round_trip, meridional_arc, zonal_arc, units_of_field, jit_factor_partial, summed_latitude_refuted |
| `UnitProps` | none | known_meshes_accepted |
| `CGridProps` | DFN | face_velocity, face_velocity_in_time, shared_face_east_west, shared_face_north_south, rectangular_cell, meridional_velocity_linear_refuted, cgrid_modes_agree_partial, wide_flat_cell_refuted |
| `CGridProps` | DF | vertical_velocity, vertical_velocity_in_both_modes |
| `GsetProps` | none | all 13: field_on_its_grid, same_index_same_grid, no_other_grids, indices_stay_valid, appended_only_if_new, equal_grids_shared, dimrange_is_intersection, dimrange_of_single_values, dimrange_defined, exact_time_axis_refuted, mesh_and_loading_refuted, auto_grid_twice_refuted, chunks_after_none_refuted |
| `CurvProps` | DFN | found_in_cell_partial, start_cell_found, lattice_position_found, lattice_position_sound, lattice_outside_not_found, lattice_outside_error_jit, box_outside_error, rectilinear_as_curvilinear, curv_sample_between, curv_sample_linear, north_rows_refuted, stale_refuted, south_refuted, outside_index_refuted |
| `SlevProps` | none | all 11: level_value_sampled, level_value_sampled_jit_partial, level_outcomes, level_value_one, level_outside, level_outside_jit, level_modes_same_partial, level_linear_field, level_value_between, flat_levels_sampled, one_column_refuted |
| `RestartProps` | none | all 6: restart_rows_partial, restart_last_partial, restart_reuses_ids_refuted, restart_shares_ids_refuted, restart_early_record_refuted, restart_twice_refuted |
| `SplitProps` | none | all 5: windows_do_not_matter, interruptions_do_not_matter, two_calls_as_one, off_step_output_refuted, off_step_start_refuted |
| `MergeProps` | none | all 9: sum_in_order, in_order_deterministic, sum_compiled_partial, sum_declares, kernel_names, left_over_local_refuted, reserved_local_refuted, array_of_earlier_kernel_refuted, array_in_both_refuted |
| `RandProps` | DF | uniform_within, uniform_distribution |
| `RandProps` | none | randint_within, randint_even, randint_swapped_refuted |
| `RandProps` | CDFN | normal_symmetric, normal_polar_method, normal_bounded, exponential_within, exponential_distribution, mises_within, mises_angle |
| `DiffProps` | DFN | euler_maruyama_statistics, uniform_diffusion_statistics, milstein_statistics, milstein_forward, milstein_backward_refuted, uniform_diffusivity_all_agree |
| `DiffProps` | DF | slope_of_quadratic, failed_diffusion_moves_nothing, euler_maruyama_in_both_modes, milstein_in_both_modes, uniform_diffusion_in_both_modes |
| `DiffProps` | CDFN | step_bounded, step_symmetric |
| `DiffProps` | none | summed_diffusivity_refuted |
| `AnaProps` | CDFN | analytical_exact_partial, analytical_path_unique, analytical_line_partial, spherical_time_refuted, backward_in_cell_refuted, stagnant_face_refuted, near_face_refuted, flux_difference_refuted, resting_longitude_refuted, next_frame_refuted, horizontal_level_refuted |
| `AnaProps` | DF | analytical_next_cell |
| `RunProps` | none | run_keeps |
| `RunProps` | D | advection_arrives, advection_in_time |
| `RunProps` | CDFN | euler_run_exact, rk4_run_exact, rk4_3d_run_exact, rk4_there_and_back, euler_run_error, rk4_run_error, rk4_3d_run_error, rk4_run_fourth_order, rk4_3d_run_fourth_order, euler_runs_converge, rk4_runs_converge, rk4_3d_runs_converge |
| `MethProps` | none | all 18: method_sampled, method_sampled_jit_partial, indices_carried, method_modes_partial, method_value_determined, method_outside_error, surface_sampled, surface_sampled_jit, surface_modes_partial, nearest_tie_refuted, nearest_pop_refuted, pop_two_levels_refuted, pop_uniform_refuted, mom5_surface_refuted, mom5_return_refuted, tracer_face_refuted, w_mitgcm_refuted, w_flat_refuted |
| `ConsProps` | none | all 9: particle_type_variables, particle_type_allowed, set_has_what_was_asked, set_is_made, processes_share_the_set, copy_of_a_later_variable_refuted, copy_of_an_unknown_name_refuted, one_id_for_all_refuted, negative_label_refuted |
| `TrajProps` | none | file_holds_the_run, file_in_step_holds_the_run, file_shows_what_is_kept |
| `TrajProps` | CDFN | file_rk4_on_course, file_rk4_within |
| `DateProps` | none | all 20: relative_time_is_the_gap, whole_seconds_return, parts_of_seconds_refuted, frames_keep_their_stamps, increasing_stamps_are_read, repeated_stamps_refuted, completing_keeps_dates, completing_succeeds, completing_again, full_axis_in_memory_refuted, samples_by_date, periodic_samples_by_date, periodic_in_memory_refuted, single_frame_refuted, default_times_by_date, default_times_in_memory_refuted, times_as_dates, undated_end_refused, undated_release_refuted, run_by_date |
| `CrashProps` | none | all 5: crash_keeps_returned_writes_partial, several_processes_export_partial, unreadable_directory_stops_conversion, returned_writes_lost_refuted, shared_particle_refuted |
| `HexProps` | DFN | all 15: face_velocity_3d_partial, face_velocity_3d_in_time_partial, jit_face_velocity_3d, jit_moving_levels_in_time, modes_agree_3d_partial, shared_face_3d_east_west, shared_face_3d_north_south, shared_face_3d_vertical, uniform_flow_3d, balanced_box_3d_partial, unbalanced_box_3d_refuted, moving_levels_3d_refuted, depths_negated_3d, decreasing_levels_3d_refuted, mitgcm_3d_refuted |
| `PeriodProps` | none | all 5: period_accepted, scipy_period_partial, scipy_period_refuted, jit_period_partial, jit_period_refuted |
| `ReadProps` | none | all 13: data_from_array, data_from_array_periodic, data_from_files, data_from_files_periodic, data_from_files_deferred_partial, reading_ways_agree_partial, limits_and_factor_refuted, factor_zero_refuted, node_coordinates, node_depth, latitudes_turned, shape_checked_partial, missing_levels_refuted |
| `ReleaseProps` | none | all but released_in_curvilinear_cell: line_positions, cell_probability, released_in_cell, all_released, released_on_positive, released_on_tracer, release_per_area_refuted, release_levels_refuted, release_two_levels_refuted, release_one_row_refuted, density_counts, density_in_cells, density_relative, density_per_area_partial, density_area_refuted, density_weights_refuted, density_zero_weight_refuted, density_shape_refuted |
| `ReleaseProps` | DF | released_in_curvilinear_cell |
| `Rk45Props` | DFN | rk45_run_steps, rk45_in_time, rk45_modes_agree, rk45_run_end, rk45_arrives, rk45_arrives_refuted, rk45_estimate_refuted |
| `Rk45Props` | CDFN | rk45_run_on_course, rk45_run_exact |
| `SaveProps` | none | saved_field, saved_field_near, saved_numbers, saved_deferred, saved_set, saved_numbers_refuted, saved_curvilinear_refuted, saved_method_refuted, saved_again_refuted, saved_periodic_refuted, saved_vector_refuted, saved_calendar_refuted |
| `TogProps` | none | together_coords, together_frames, together_frames_deferred, together_alone, together_units, together_units_first, together_units_refuted, together_coords_refuted, together_dates_refuted, together_last_refuted, together_type_refuted, together_mixed_refuted, together_dims_refuted |
<!-- end assumptions -->
