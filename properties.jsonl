{"id": "C01", "title": "Particle ids are unique in a session", "statement": "After any sequence of ParticleSet creations, repeated releases, additions and removals in one Python session (ids not supplied by the user), no two particles ever created carry the same id, so an id names one trajectory for the whole session and in the output file.", "quantifier": "every sequence of ParticleSet constructions of any sizes (including size 0), in any order", "why_tests_cant": "Tests construct one or two non-empty sets; uniqueness is about every history of constructions, including empty ones and sets made between releases.", "anchors": ["parcels/particlesets/collectionsoa.py:ParticleCollectionSOA.__init__", "parcels/particle.py:setLastID", "parcels/particlesets/particlesetsoa.py:ParticleSetSOA.__init__"]}
{"id": "C02", "title": "A particle's variables stay together", "statement": "Whatever sequence of additions, removals, deletions and per-particle assignments is applied to a ParticleSet, each particle seen through iteration carries exactly the values of one particle that was created (plus the assignments made to it): the columns never get misaligned, and len(pset) is the number of particles iterated.", "quantifier": "every particle class (any number of Variables), every sequence of add / remove-by-index / remove-by-indices / remove-by-id / remove-boolean / set-attribute operations on any number of sets", "why_tests_cant": "Alignment is an invariant of every reachable store; a test only looks at a few stores with few variables.", "anchors": ["parcels/particlesets/collectionsoa.py:add_same", "parcels/particlesets/collectionsoa.py:remove_single_by_index", "parcels/particlesets/collectionsoa.py:remove_multi_by_indices", "parcels/particlesets/collectionsoa.py:ParticleAccessorSOA"]}
{"id": "C03", "title": "Adding a set adds every particle exactly once", "statement": "After pset_a.add(pset_b) (or +=), pset_a holds exactly its previous particles plus those of pset_b, each once and with all their values, whatever their ids and order, and its length is the sum of the lengths.", "quantifier": "every pair of sets of any sizes, sorted or not by id, with overlapping or disjoint id ranges", "why_tests_cant": "The three concatenation branches depend on order of ids; tests hit only the common append branch.", "anchors": ["parcels/particlesets/collectionsoa.py:add_same", "parcels/particlesets/particlesetsoa.py:add", "parcels/particlesets/particlesetsoa.py:__iadd__"]}
{"id": "C04", "title": "Removal removes exactly the requested particles", "statement": "Removing by index, by list of indices, by id or by boolean vector removes exactly the particles designated, keeps all the others unchanged and in their order, and leaves len(pset) equal to the number of particles left.", "quantifier": "every set, every index, every list of in-range indices (in any order, possibly with repetitions), every boolean vector of the right length, every id", "why_tests_cant": "Off-by-one and duplicate handling only show for specific index lists.", "anchors": ["parcels/particlesets/collectionsoa.py:remove_single_by_index", "parcels/particlesets/collectionsoa.py:remove_multi_by_indices", "parcels/particlesets/collectionsoa.py:remove_single_by_ID", "parcels/particlesets/particlesetsoa.py:remove_indices", "parcels/particlesets/particlesetsoa.py:remove_booleanvector"]}
{"id": "C05", "title": "Looking a particle up by id finds it", "statement": "For any particle set reached by any history of additions and removals, looking up an id present in the set returns the particle that carries that id, and looking up an absent id raises an error; the same holds for deleting or removing by id, and for lists of ids.", "quantifier": "every reachable particle set, every id, every list of ids", "why_tests_cant": "The lookup switches between binary and linear search on a cached 'sorted' flag whose truth depends on the whole history of the set.", "anchors": ["parcels/particlesets/collectionsoa.py:get_single_by_ID", "parcels/particlesets/collectionsoa.py:get_multi_by_IDs", "parcels/particlesets/collectionsoa.py:_recursive_ID_lookup", "parcels/particlesets/collectionsoa.py:delete_by_ID", "parcels/particlesets/collectionsoa.py:remove_single_by_ID"]}
{"id": "C06", "title": "Sets do not share storage after an add", "statement": "After pset_a.add(pset_b), later operations on pset_a (assignments, removals, additions, executions) do not change what pset_b contains, and vice versa.", "quantifier": "every pair of sets, including empty ones, and every later sequence of operations on either", "why_tests_cant": "Aliasing is only visible on particular histories (adding into an empty set, then removing).", "anchors": ["parcels/particlesets/collectionsoa.py:add_same"]}
{"id": "C07", "title": "Kernel calls tile the execution interval", "statement": "When a particle set is executed up to an end time and no kernel call errs, each started particle receives kernel calls at times t0, t1, ... with t(i+1) = t(i) + dt(i), the first at the particle's own time and the last step ending exactly at the end time; every step has the sign of dt, none is longer than the particle's dt, and only the last may be shorter. The particle's time at the end equals the end time.", "quantifier": "every particle time, every dt (positive or negative), every end time, every kernel that neither errs nor changes its dt", "why_tests_cant": "Depends on the arithmetic relation between start time, dt and end time; tests use dt dividing the interval.", "anchors": ["parcels/kernel.py:Kernel.execute_python", "parcels/compilation/codegenerator.py:LoopGenerator.generate"]}
{"id": "C08", "title": "Particles that are not started or already done are untouched", "statement": "A particle whose time is not strictly before the end time in the direction of integration (not yet released, or already at the end) has no kernel executed on it and keeps all its variables.", "quantifier": "every particle, dt of either sign, every end time", "why_tests_cant": "Delayed starts are combinations of time, end time and sign; tests sample a few.", "anchors": ["parcels/kernel.py:Kernel.execute_python", "parcels/compilation/codegenerator.py:LoopGenerator.generate"]}
{"id": "C09", "title": "A failed or repeated kernel call leaves no trace", "statement": "If a kernel call on a particle ends in an error or asks to be repeated, then every variable of the particle except dt and state has after that call the value it had before the call, whatever the kernel had already assigned; the particle's time does not advance.", "quantifier": "every kernel behaviour (any assignments before the failure), every error code, every particle", "why_tests_cant": "Quantifies over all kernels and all points at which they fail.", "anchors": ["parcels/kernel.py:Kernel.execute_python", "parcels/compilation/codegenerator.py:LoopGenerator.generate"]}
{"id": "C10", "title": "Deleted particles disappear and stay gone", "statement": "A particle that is deleted by a kernel or a recovery kernel during execute is absent from the set when execute returns, is not passed to any kernel after the call that deleted it, and no other particle is removed.", "quantifier": "every set, every kernel, every recovery map, every pattern of deletions", "why_tests_cant": "Depends on the interleaving of deletions with error recovery over several rounds.", "anchors": ["parcels/kernel.py:Kernel.execute", "parcels/kernel.py:Kernel.remove_deleted_soa", "parcels/particlesets/collectionsoa.py:remove_multi_by_indices"]}
{"id": "C11", "title": "Errors are dispatched to the right recovery kernel", "statement": "Each particle in error after a pass gets exactly the recovery kernel registered for its error code (a user entry overrides the default; an out-of-bounds handler also serves through-surface errors when none is given), exactly once per failure; a repeat request gets none; codes without handler delete the particle; execution then continues until no particle is in error.", "quantifier": "every recovery map, every kernel, every distribution of error codes over the particles, any number of recovery rounds", "why_tests_cant": "Combinatorial in the codes, maps and rounds.", "anchors": ["parcels/kernel.py:Kernel.execute", "parcels/tools/statuscodes.py:recovery_map"]}
{"id": "C12", "title": "Particles do not influence each other", "statement": "Executing a kernel over a set gives each particle the same result as executing it on a set containing only that particle, whatever other particles are in the set, in whatever order, and whether or not others fail, are repeated or are deleted.", "quantifier": "every set, every deterministic per-particle kernel and recovery kernel, dt of either sign", "why_tests_cant": "A relational property over all pairs of sets; failing neighbours cause extra passes over everyone.", "anchors": ["parcels/kernel.py:Kernel.execute", "parcels/kernel.py:Kernel.execute_python"]}
{"id": "C13", "title": "A zero-length run executes the kernel exactly once", "statement": "execute with runtime=0 or dt=0 calls the kernel exactly once for each particle and does not change its time, also when some particles need error recovery.", "quantifier": "every set, every kernel and recovery map", "why_tests_cant": "Only particular recovery patterns re-enter the loop.", "anchors": ["parcels/kernel.py:Kernel.execute_python", "parcels/kernel.py:Kernel.execute", "parcels/particlesets/baseparticleset.py:BaseParticleSet.execute"]}
{"id": "C14", "title": "JIT and Scipy modes step particles identically", "statement": "For the same kernel behaviour, the generated C particle loop and the Python particle loop make the same kernel calls (times and dt) and leave each particle in the same state.", "quantifier": "every particle, dt != 0, end time and kernel behaviour", "why_tests_cant": "Equivalence of two implementations over all inputs.", "anchors": ["parcels/kernel.py:Kernel.execute_python", "parcels/compilation/codegenerator.py:LoopGenerator.generate"]}
{"id": "C15", "title": "execute covers the requested interval and stops", "statement": "pset.execute always terminates: it advances through a finite sequence of strictly monotone window end times, none beyond the end time, the last one equal to the end time, so that every particle set window is executed contiguously over [start, end].", "quantifier": "every dt of either sign, every positive outputdt / repeatdt / moviedt / callbackdt, every sequence of forcing-data reload times", "why_tests_cant": "Termination and exactness must hold for every combination of the periods.", "anchors": ["parcels/particlesets/baseparticleset.py:BaseParticleSet.execute"]}
{"id": "C16", "title": "Output is written exactly at multiples of outputdt and at the end", "statement": "During execute with an output file, the particle set is written at the start time, at start + k*outputdt (in the direction of dt) for every k with that time not beyond the end, and at the end time, and at no other time (apart from writes of deleted particles).", "quantifier": "every start, end, dt sign, outputdt > 0 and every set of other interrupt periods", "why_tests_cant": "The output instants interact with release, movie, callback and input instants.", "anchors": ["parcels/particlesets/baseparticleset.py:BaseParticleSet.execute", "parcels/particlefile.py:ParticleFile.write"]}
{"id": "C17", "title": "Repeated releases happen at every multiple of repeatdt, once", "statement": "With repeatdt, a new batch of particles is released at each repeat_starttime + k*repeatdt (k >= 1, in the direction of dt) passed or reached during execute and at no other time, once each, also when the run is split over several execute calls; each batch starts from the originally specified positions.", "quantifier": "every start, end, repeatdt > 0, dt sign, and every way of splitting the run into consecutive execute calls", "why_tests_cant": "Depends on how windows, restarts and periods line up over arbitrarily many calls.", "anchors": ["parcels/particlesets/baseparticleset.py:BaseParticleSet.execute", "parcels/particlesets/particlesetsoa.py:ParticleSetSOA.__init__"]}
{"id": "C18", "title": "The exported file contains exactly what was written", "statement": "After any history of writes, the exported array for each variable has one row per particle ever written (in id order) and that row lists, in order, exactly the values of the particle at each of the writes that included it, followed only by missing values.", "quantifier": "every history of writes (any sets of particles at any times, including deleted-only writes), every variable", "why_tests_cant": "A round-trip law over all histories, ids, births and deaths.", "anchors": ["parcels/particlefile.py:ParticleFile.read_from_npy", "parcels/particlefile.py:ParticleFile.export", "parcels/particlefile.py:ParticleFile.dump_dict_to_npy", "parcels/particlesets/collectionsoa.py:toDictionary"]}
{"id": "C19", "title": "Each write records each active particle once", "statement": "A regular write at a time that has not just been written records every particle whose time is within dt/2 of the write time exactly once with its current values and no other particle; writing the same time twice in a row records nothing the second time; a particle deleted during execute is recorded at its deletion, also with write_ondelete.", "quantifier": "every set, every time, every sequence of writes", "why_tests_cant": "Depends on histories of writes, deletions and times.", "anchors": ["parcels/particlesets/collectionsoa.py:toDictionary", "parcels/particlesets/collectionsoa.py:_to_write_particles", "parcels/kernel.py:Kernel.remove_deleted_soa"]}
{"id": "C20", "title": "'once' variables are written exactly once per particle", "statement": "A Variable with to_write='once' is recorded at most once per particle over any history of writes, at the first regular write at which the particle is active, and the exported vector holds that value for each particle.", "quantifier": "every history of writes", "why_tests_cant": "An invariant over histories.", "anchors": ["parcels/particlesets/collectionsoa.py:toDictionary", "parcels/particlesets/collectionsoa.py:_is_particle_started_yet", "parcels/particlefile.py:ParticleFile.read_from_npy"]}
{"id": "C21", "title": "Horizontal index search brackets the position", "statement": "Sampling a field on a rectilinear grid at a position inside the grid uses the cell that contains it, with relative coordinates in [0,1] that reproduce the position; outside the grid it raises an out-of-bounds error and never returns a value.", "quantifier": "every strictly increasing lon and lat axis of any length, every position (flat mesh)", "why_tests_cant": "Boundary nodes, ends of the axes and arbitrary spacing.", "anchors": ["parcels/field.py:Field.search_indices_rectilinear", "parcels/include/index_search.h:search_indices_rectilinear"]}
{"id": "C22", "title": "Vertical index search brackets the depth", "statement": "For increasing or decreasing depth axes, sampling at a depth within range uses the level interval that contains it, with relative coordinate in [0,1] reproducing the depth; above the first level it raises the through-surface error and below the last the out-of-bounds error.", "quantifier": "every strictly monotone depth axis, every depth", "why_tests_cant": "Both axis directions, boundary levels, errors distinguished.", "anchors": ["parcels/field.py:Field.search_indices_vertical_z", "parcels/include/index_search.h:search_indices_vertical_z"]}
{"id": "C23", "title": "Index search does not depend on the particle's previous cell", "statement": "The JIT index search, which starts from the particle's previous cell, terminates and finds a cell containing the position from any starting cell, and the linearly interpolated value equals that of the Scipy search.", "quantifier": "every strictly increasing axis, every starting index, every position in range", "why_tests_cant": "Quantifies over all histories of the particle.", "anchors": ["parcels/include/index_search.h:search_indices_rectilinear", "parcels/field.py:Field.search_indices_rectilinear"]}
{"id": "C24", "title": "Time index brackets the sampling time", "statement": "For a non-periodic field, sampling at a time inside the field's time axis uses the two frames that bracket it; outside, it raises the time-extrapolation error unless extrapolation is allowed, in which case the nearest end frame is used. For a time-periodic field, sampling at t and at t plus any whole number of periods gives the same value.", "quantifier": "every strictly increasing time axis, every time, every number of periods (positive or negative)", "why_tests_cant": "Boundary frames and arbitrary period counts.", "anchors": ["parcels/field.py:Field.time_index", "parcels/field.py:Field.eval", "parcels/include/index_search.h:search_time_index"]}
{"id": "C25", "title": "Linear interpolation is exact, bounded and continuous", "statement": "Linear interpolation in a cell returns the node value at a node, never leaves the range of the cell's corner values, reproduces exactly any field that is (tri)linear in the relative coordinates, and takes the same value on a face shared by two neighbouring cells.", "quantifier": "all corner values, all relative coordinates in [0,1]", "why_tests_cant": "Holds for all real values of data and position.", "anchors": ["parcels/field.py:Field.interpolator2D", "parcels/field.py:Field.interpolator3D", "parcels/include/parcels.h:spatial_interpolation_bilinear", "parcels/include/parcels.h:spatial_interpolation_trilinear"]}
{"id": "C26", "title": "Temporal interpolation is linear between frames", "statement": "Between two frames the sampled value is the linear interpolation of the two spatially interpolated values, so equals each frame's value at the frame's time, stays between them and is continuous in time across frames.", "quantifier": "all frames, times and spatial values", "why_tests_cant": "Holds for all times and data.", "anchors": ["parcels/field.py:Field.eval", "parcels/include/parcels.h:temporal_interpolation_structured_grid", "parcels/field.py:Field.temporal_interpolate_fullfield"]}
{"id": "C27", "title": "Land values do not leak into land-aware interpolation", "statement": "With linear_invdist_land_tracer, land (zero) nodes have no weight: the result is a weighted average with positive weights of the non-land corner values only, equals the node value on a node, is 0 only if all corners are land or the position is on a land node, and Scipy and JIT modes agree.", "quantifier": "all corner values and land masks, all relative coordinates in [0,1]", "why_tests_cant": "All 16 (256 in 3D) land masks times all positions.", "anchors": ["parcels/field.py:Field.interpolator2D", "parcels/field.py:Field.interpolator3D", "parcels/include/parcels.h:spatial_interpolation_bilinear_invdist_land", "parcels/include/parcels.h:spatial_interpolation_trilinear_invdist_land"]}
{"id": "C28", "title": "Summed and nested fields combine as documented", "statement": "Sampling a SummedField gives the sum of the samples of its components, in any grouping and order; sampling a NestedField gives the sample of the first component not out of bounds there, and an out-of-bounds error exactly when all components are out of bounds.", "quantifier": "every list of component fields and every outcome of each component (value or any error)", "why_tests_cant": "All lists and error patterns.", "anchors": ["parcels/field.py:SummedField.__getitem__", "parcels/field.py:NestedField.__getitem__", "parcels/compilation/codegenerator.py:KernelGenerator.visit_NestedFieldEvalNode", "parcels/compilation/codegenerator.py:KernelGenerator.visit_SummedFieldEvalNode"]}
{"id": "C29", "title": "Chunked field access returns the same data as unchunked", "statement": "However a field is split in chunks, reading the corners of a cell through the chunk lookup returns the values of the unsplit array at those indices, and asks for exactly the chunks needed that are not loaded.", "quantifier": "every chunk decomposition in 2 or 3 space dimensions, every cell (including those straddling chunk borders)", "why_tests_cant": "All chunk layouts and straddling cells.", "anchors": ["parcels/include/parcels.h:getBlock2D", "parcels/include/parcels.h:getCell2D", "parcels/include/parcels.h:getBlock3D", "parcels/include/parcels.h:getCell3D", "parcels/field.py:Field.get_block", "parcels/field.py:Field.chunk_setup"]}
{"id": "C30", "title": "Deferred loading keeps the frames needed in memory", "statement": "With deferred loading, for any monotone sequence of times at which data are requested (forward or backward), the two frames held in memory bracket the time requested and all times up to the announced next reload, and the values held are those of these frames in the files.", "quantifier": "every strictly increasing time axis, every monotone sequence of request times, both directions", "why_tests_cant": "An invariant over histories of reloads.", "anchors": ["parcels/grid.py:Grid.computeTimeChunk", "parcels/fieldset.py:FieldSet.computeTimeChunk", "parcels/field.py:Field.computeTimeChunk"]}
{"id": "C31", "title": "Periodic halo extends the field periodically", "statement": "After add_periodic_halo, the coordinates remain strictly increasing, the interior data and coordinates are unchanged, and every halo point carries the value of the grid point one period away, so that field values at points one period apart are equal.", "quantifier": "every equally spaced axis, every halo size between 1 and the axis length, zonal and/or meridional", "why_tests_cant": "All sizes and halo widths.", "anchors": ["parcels/grid.py:RectilinearGrid.add_periodic_halo", "parcels/field.py:Field.add_periodic_halo", "parcels/fieldset.py:FieldSet.add_periodic_halo"]}
{"id": "C32", "title": "Kernel expressions mean the same in C as in Python", "statement": "The C expression generated for a kernel expression (arithmetic, comparisons, boolean operators, unary operators, any nesting) has the value the Python expression has.", "quantifier": "every expression of the supported kernel language, every assignment of values to variables", "why_tests_cant": "Infinitely many nestings; precedence slips only show for particular ones.", "anchors": ["parcels/compilation/codegenerator.py:KernelGenerator.visit_BinOp", "parcels/compilation/codegenerator.py:KernelGenerator.visit_Compare", "parcels/compilation/codegenerator.py:KernelGenerator.visit_BoolOp", "parcels/compilation/codegenerator.py:KernelGenerator.visit_UnaryOp"]}
{"id": "C33", "title": "Kernel statements mean the same in C as in Python", "statement": "The C statements generated for a kernel body (assignments, augmented and tuple assignments, if/else, while, break, delete, return) have the effect the Python body has on the particle's variables.", "quantifier": "every kernel body in the supported language, every initial particle state", "why_tests_cant": "Infinitely many programs.", "anchors": ["parcels/compilation/codegenerator.py:KernelGenerator.visit_If", "parcels/compilation/codegenerator.py:KernelGenerator.visit_While", "parcels/compilation/codegenerator.py:TupleSplitter", "parcels/compilation/codegenerator.py:KernelGenerator.visit_Assign"]}
{"id": "C34", "title": "RK4 and Euler advection integrate as advertised", "statement": "AdvectionEE and AdvectionRK4 move a particle by exactly the displacement of the flow when velocity is constant; RK4 is exact whenever velocity depends on time only through a polynomial of degree at most 3, and for linear velocity fields applies exactly the degree-4 Taylor polynomial of the exponential (4th order).", "quantifier": "all positions, dt of either sign, all polynomial coefficients, all linear velocity fields", "why_tests_cant": "Exactness and order hold for all inputs or not at all.", "anchors": ["parcels/kernels/advection.py:AdvectionRK4", "parcels/kernels/advection.py:AdvectionRK4_3D", "parcels/kernels/advection.py:AdvectionEE"]}
{"id": "C35", "title": "RK45 accepts only steps within tolerance", "statement": "AdvectionRK45 moves a particle only when the difference of its two embedded solutions is within tol*dt, otherwise leaves it in place, halves dt and asks for a repeat; after an accepted step well within tolerance the next dt is doubled; both embedded solutions are consistent integrators.", "quantifier": "all positions, dt, tolerances and velocity fields", "why_tests_cant": "Holds over every velocity field and step size.", "anchors": ["parcels/kernels/advection.py:AdvectionRK45"]}
{"id": "C36", "title": "Unit conversion is consistent and invertible", "statement": "Converting a value to degrees and back returns it, the factor used in JIT mode equals the one used in Scipy mode, and conversion scales velocities so that a displacement of one nautical mile is one minute of arc of latitude (and of longitude divided by cos latitude).", "quantifier": "all values and all latitudes strictly between the poles", "why_tests_cant": "Continuous domain.", "anchors": ["parcels/tools/converters.py:Geographic", "parcels/tools/converters.py:GeographicPolar", "parcels/tools/converters.py:GeographicSquare", "parcels/tools/converters.py:GeographicPolarSquare"]}
{"id": "C37", "title": "C-grid velocities respect the cell faces", "statement": "On a C-grid, the interpolated velocity at a cell face has exactly the normal component prescribed on that face, so no particle is driven through a face with zero normal velocity, and neighbouring cells agree on their shared face; velocity components vary linearly in their own direction inside a rectilinear cell.", "quantifier": "all face velocities, all rectangular cells, all relative coordinates in [0,1]", "why_tests_cant": "Continuous domain; wrong face pairing only shows for asymmetric data.", "anchors": ["parcels/field.py:VectorField.spatial_c_grid_interpolation2D", "parcels/include/parcels.h:spatial_interpolation_UV_c_grid"]}
{"id": "C38", "title": "Fields on the same grid share it and no others do", "statement": "Adding fields to a FieldSet gives every field an index to a grid whose coordinates and time axis equal the field's own; distinct grids are kept distinct; dimrange returns the intersection of the ranges of all grids.", "quantifier": "every sequence of fields added, with any grids", "why_tests_cant": "All sequences of grids, order dependence.", "anchors": ["parcels/gridset.py:GridSet.add_grid", "parcels/gridset.py:GridSet.dimrange"]}
{"id": "C39", "title": "Longitudes are searched modulo 360 on spherical meshes", "statement": "On a spherical mesh whose longitudes increase or pass from 180 to -180, sampling at a position between the smallest and largest longitude of the grid uses the cell that contains the position whole turns away, from any previous cell of the particle and in both modes, and gives the value of the field on longitudes without the jump; a longitude covered by no cell gives an out-of-bounds error. On a zonally periodic grid (with a halo) longitudes one turn away from the grid are found as well.", "quantifier": "every axis of at most 10002 longitudes along an arc with cells narrower than 135 degrees (for halos up to 450 degrees), every jump position, every longitude, every starting index", "why_tests_cant": "All jump positions, starting cells and whole turns; the C search walks around the axis modulo its length with an iteration bound.", "anchors": ["parcels/field.py:Field.search_indices_rectilinear", "parcels/include/index_search.h:search_indices_rectilinear", "parcels/include/index_search.h:reconnect_bnd_indices"]}
{"id": "C40", "title": "Curvilinear grids: positions are found in the cell that contains them", "statement": "On a curvilinear grid the search returns a cell of the grid and relative coordinates between 0 and 1 at which the bilinear map of the corners (longitudes up to whole turns) gives the position, up to the tolerance of the search. A particle still in the cell it was last found in is found there. On sheared, rotated or stretched grids (in particular a rectilinear grid given as 2D arrays) every position inside is found from any starting cell and no position outside is, in both modes; samples stay between the extremes of the data and reproduce linear fields.", "quantifier": "every grid size, node coordinates, position, starting cell; both modes", "why_tests_cant": "The loop solves a quadratic per cell and walks over the grid; tests use a few grids with smooth, right-handed cells.", "anchors": ["parcels/field.py:Field.search_indices_curvilinear", "parcels/field.py:Field.reconnect_bnd_indices", "parcels/include/index_search.h:search_indices_curvilinear", "parcels/field.py:Field.interpolator2D"]}
{"id": "C41", "title": "Terrain-following levels: samples are taken between the levels around the particle", "statement": "On a grid whose depth levels vary in space (and in time), a sample is interpolated linearly between the two levels that enclose the particle's depth, where those levels are at the particle's own position and time; above the first level and below the last one the errors are ThroughSurface and OutOfBounds. The value lies between the data at the corners used, reproduces fields that are linear in position, time and depth however the levels lie, is the z-grid value when the levels are flat, and is the same in both modes.", "quantifier": "every grid size, level geometry, data, position, time, stored indices; both modes", "why_tests_cant": "Needs all level geometries: tests use one bathymetry, and memory reads of the C code depend on the layout of the array.", "anchors": ["parcels/field.py:Field.search_indices_vertical_s", "parcels/field.py:Field.eval", "parcels/include/index_search.h:search_indices_vertical_s", "parcels/include/parcels.h:temporal_interpolation_structured_grid", "parcels/grid.py:RectilinearSGrid"]}
{"id": "C42", "title": "A run can be restarted from its output file", "statement": "ParticleSet.from_particlefile, given the exported file of any session of writes, makes a set of exactly the particles that have a record with the restart time (default: the latest), with the values they were recorded with; variables written once get the particle's own value. With restart=True the particles keep their ids, otherwise they get the next free ones. The default restart of a run whose last write recorded all its particles at one time holds exactly those particles. No other set changes.", "quantifier": "every session of writes, particle class, restart time (given, latest, or a function of the times), state of the process", "why_tests_cant": "Depends on the whole history of writes, deletions and delayed releases, and on padding by missing values; tests restart from one or two regular runs.", "anchors": ["parcels/particlesets/particlesetsoa.py:ParticleSetSOA.from_particlefile", "parcels/particlefile.py:ParticleFile.export", "parcels/particlesets/collectionsoa.py:ParticleCollectionSOA.__init__"]}
{"id": "C43", "title": "Interrupting a run does not change its result", "statement": "For kernels and recovery kernels that act on each particle alone and never write particle.time or particle.dt: if outputs, animations, callbacks, releases, forcing reads and the end of the run all come after whole numbers of steps, two calls of pset.execute over the same interval end with the same particles (same order, ids, times, dt and variables) whatever their outputdt, moviedt, callbackdt, output file, callbacks and forcing times; one completes if the other does. Likewise a run cut in two consecutive calls at a whole number of steps ends as the uncut run does. Holds in Scipy and in JIT mode, with failures, recoveries, deletions and repeated releases on the way.", "quantifier": "every kernel, recovery kernel, particle set, dt of either sign, release period, batches, output/animation/callback periods, forcing times, point of the cut", "why_tests_cant": "Relates pairs of runs over all ways of cutting an interval into windows, with failures and releases at any step; tests compare a few outputdt values in one setting.", "anchors": ["parcels/particlesets/baseparticleset.py:BaseParticleSet.execute", "parcels/kernel.py:Kernel.execute", "parcels/kernel.py:Kernel.execute_python", "parcels/compilation/codegenerator.py:LoopGenerator.generate"]}
{"id": "C44", "title": "A sum of kernels is the kernels in order", "statement": "Calling k1 + k2 + ... on a particle is calling k1, k2, ... one after the other on it, each with local variables of its own: same variables of the particle, same return code or failure; a kernel that returns or fails ends the whole. Holds for all kernels that assign every local before they read it, do not assign the argument time and have no break outside a loop, whatever locals they share. The C function generated for the sum does the same, and declares each local of the kernels exactly once.", "quantifier": "every list of kernels, particle, time, fields; every assignment pattern of shared local names", "why_tests_cant": "Quantifies over all kernel bodies and all overlaps of their local names; tests add a few fixed kernels.", "anchors": ["parcels/kernel.py:Kernel.merge", "parcels/kernel.py:Kernel.__add__", "parcels/compilation/codegenerator.py:KernelGenerator.generate", "parcels/compilation/codegenerator.py:KernelGenerator.visit_Assign"]}
{"id": "C45", "title": "The C random numbers have the ranges and shapes that were asked for", "statement": "uniform(low, high) lies between low and high in either order and is below t for the share of rand() numbers that it should be; randint gives low..high-1, each equally often up to one; normalvariate is loc + scale times the first coordinate of Marsaglia's polar method, symmetric about loc and bounded; expovariate is defined for every rand(), non-negative and has the exponential distribution function; vonmisesvariate lies in [0, 2 pi], at the angle from mu that Best and Fisher's method gives.", "quantifier": "every generator state and every generator giving 0..RAND_MAX, all parameters", "why_tests_cant": "Tests compare sample means of a few thousand draws with loose tolerances; the ranges, the count of each value and the symmetry hold for every draw of every generator.", "anchors": ["parcels/include/random.h:parcels_uniform", "parcels/include/random.h:parcels_randint", "parcels/include/random.h:parcels_normalvariate", "parcels/include/random.h:parcels_expovariate", "parcels/include/random.h:parcels_vonmisesvariate"]}
{"id": "C46", "title": "The diffusion kernels move particles with the mean and spread of the diffusivity", "statement": "For increments of mean 0 and variance |dt|: AdvectionDiffusionEM moves a particle by (velocity + slope of the diffusivity) dt on average with variance 2 K |dt| in each direction, uncorrelated; DiffusionUniformKh with the same variance and no drift; AdvectionDiffusionM1 with the same mean, and variance 2 K |dt| plus the Milstein term. The slope is exact for quadratic diffusivities. With uniform diffusivity all three equal AdvectionEE followed by DiffusionUniformKh, draw by draw. With the C generator steps are bounded and symmetric. A failing sample moves nothing. Scipy and JIT mode do the same.", "quantifier": "all fields, particles, dt of either sign, draws and distributions with the moments of Wiener increments", "why_tests_cant": "Tests compare sample statistics of a finite number of particles with wide tolerances, only forward in time and with special diffusivities.", "anchors": ["parcels/kernels/advectiondiffusion.py:AdvectionDiffusionM1", "parcels/kernels/advectiondiffusion.py:AdvectionDiffusionEM", "parcels/kernels/advectiondiffusion.py:DiffusionUniformKh"]}
{"id": "C47", "title": "The analytical kernel follows the exact path through the cells of a C-grid", "statement": "AdvectionAnalytical moves a particle along the exact path of the velocity field of the C-grid cell it is in: it stays in the cell during the step, ends after particle.dt or on the face of the cell it reaches first, and leaves in particle.dt the time that has passed. Particles at rest do not move.", "quantifier": "all grids, cells, velocities at the faces (with or without W, one or several frames), places in the cell, dt of either sign", "why_tests_cant": "Tests run a few smooth flows forward (and a uniform one backward) and compare with a tolerance; they do not meet stagnant faces, places next to a face, the time of passage at other latitudes or the end of a frame.", "anchors": ["parcels/kernels/advection.py:AdvectionAnalytical"]}
{"id": "C48", "title": "A run with an advection kernel integrates the flow", "statement": "After pset.execute with AdvectionEE, AdvectionRK4 or AdvectionRK4_3D every particle in the set is where the water parcel that started at its place is at the particle's time: exactly for flows the method integrates exactly, otherwise up to an error that is of the order of the method and goes to zero with dt, whatever outputs, releases, callbacks and readings of data divide the run, in both modes and both directions of time. If no sample fails the run completes, no particle is left behind, lost or beyond the end. A run in such a flow and a run back return every particle to where it was.", "quantifier": "all particle sets and releases, runtimes, dt of either sign, divisions of the run, failing samples and recoveries that delete, both modes; all velocity fields that are polynomial in time, linear in space, or bounded and Lipschitz", "why_tests_cant": "Tests advect a few particles in a few flows and compare with a tolerance; they do not show a bound for every flow, run and division of a run.", "anchors": ["parcels/kernels/advection.py:AdvectionRK4", "parcels/particlesets/baseparticleset.py:execute", "parcels/kernel.py:execute_python"]}
{"id": "C49", "title": "Interpolation methods give the node, level or layer they name", "statement": "Inside the mesh a field sampled with interp_method 'nearest' has the value of a node no other node is nearer than, one of the tracer methods that of the north-east corner of the cell at the level of the layer, 'bgrid_velocity' the bilinear interpolation of the level of the layer (the lower one for MOM5), 'bgrid_w_velocity' the value at the north-east corner linear in depth, 'linear' the linear interpolation, with the lowest layer of POP falling to zero and the surface layer of MOM5 to the surface; each linear in time as for plain linear fields. Both modes agree at every position at which there is no choice of cell or node, from any history of the particle, and outside the mesh give the same error.", "quantifier": "all rectilinear z grids, flat or spherical along an arc, with increasing or decreasing depths and axes of one point, all data, methods and gridindexing types, positions, times, previous indices", "why_tests_cant": "Tests sample a few positions of a few fields in each method; they miss the positions, layers and indexing types where the modes differ.", "anchors": ["parcels/field.py:interpolator2D", "parcels/field.py:interpolator3D", "parcels/include/parcels.h:temporal_interpolation_structured_grid"]}
{"id": "C50", "title": "A particle set is what its arguments say", "statement": "A particle class has the variables of its bases and its own, each once; a name used twice, or z, is refused. A ParticleSet made from it has one particle per entry of lon, and every variable of every particle has the value asked for: position, time and further arguments as given (one time for all particles, the first depth of the fields when none is given), ids counted on from those given before, and every other variable its initial value, which is a constant, the value of another variable, or a field sampled at the start. The set is made exactly when all arguments have one value per particle, name variables of the class and the fields have values there. With MPI the processes together hold exactly these particles with these values, whatever the labels, and agree on the next id.", "quantifier": "all chains of particle classes, all arguments of all lengths, all previous sets, all numbers of processes and labels", "why_tests_cant": "Tests build sets of a few classes with a few arguments; the order in which variables are filled and the division over processes cannot be enumerated.", "anchors": ["parcels/particlesets/particlesetsoa.py:ParticleSetSOA.__init__", "parcels/particlesets/collectionsoa.py:ParticleCollectionSOA.__init__", "parcels/particle.py:ParticleType"]}
{"id": "C51", "title": "The output file of a run holds the states of the run", "statement": "After pset.execute with an output_file of which nothing is written only once, the exported file has one row per particle that was recorded, and the row holds, in this order and once each, its states at the start, at every multiple of outputdt and at the end, as far as it was there (its own time within half a time step), and then, if it was deleted, the state in which it was deleted. The state at a time of output is the one with which the same call, asked to stop at that time, ends; entries of different variables at the same place belong to the same state; and writing does not change the run. Hence whatever every step keeps is true of everything in the file: with AdvectionRK4 every recorded position is where the water parcel is at the recorded time, exactly in flows that are cubic in time at each depth and within the error bound of the run in all other smooth flows.", "quantifier": "all kernels, error handlers, particle sets, releases, forcing intervals, values of dt, outputdt and runtime, both directions of time, both modes, all lists of output variables", "why_tests_cant": "Tests look at a few files of a few runs; the theorem joins the loops of execute, recovery, deletion, writing and export for all of them.", "anchors": ["parcels/particlesets/baseparticleset.py:BaseParticleSet.execute", "parcels/kernel.py:Kernel.execute", "parcels/kernel.py:Kernel.remove_deleted_soa", "parcels/particlefile.py:ParticleFile.write", "parcels/particlefile.py:ParticleFile.export"]}
{"id": "C52", "title": "Dates mean the same whatever the time origin", "statement": "Relative times are the seconds between two dates of one calendar, and dates of different calendars are never subtracted. The frames read from files keep their dates, strictly increasing, or are refused. Completing a FieldSet whose fields have time origins of their own keeps the date of every frame and succeeds exactly when the calendars agree; doing it again changes nothing. Afterwards sampling at the relative time of a date gives what the field's own frames have at that date (interpolated, extrapolated, an error, or repeated by period), the default start and end times are the dates that all series cover, and times given as datetime, numpy or cftime dates become the seconds from the origin. A run counted from an earlier origin does the same, at the later times, and leaves the same particles.", "quantifier": "all origins, calendars, series of frames, FieldSets of several grids, dates, values, both modes; all kernels, handlers, releases and forcing for runs", "why_tests_cant": "Tests use one origin with a few fields; a shift applied to some of the time axes only, or a time counted from zero, is invisible unless origins differ.", "anchors": ["parcels/tools/converters.py:TimeConverter", "parcels/field.py:Field.collect_timeslices", "parcels/fieldset.py:FieldSet.check_complete", "parcels/particlesets/particlesetsoa.py:ParticleSetSOA.__init__", "parcels/particlesets/baseparticleset.py:BaseParticleSet.execute"]}
{"id": "C53", "title": "What had been written survives a crash, and several processes make one file", "statement": "If processes of a run die at any moment, parcels_convert_npydir_to_netcdf makes from the temporary directories a file with exactly what the calls of write that had returned recorded, of all processes together: a row per particle, every variable, and the values of variables written once. If none dies the file holds all records of all processes. A directory without a readable pset_info.npy makes the conversion fail as a whole.", "quantifier": "all numbers of processes, histories of writes, points at which each of them dies (between any two file operations), output variables", "why_tests_cant": "A crash can come between any two file operations of any process; tests do not crash at all of them.", "anchors": ["parcels/particlefile.py:ParticleFile.dump_dict_to_npy", "parcels/particlefile.py:ParticleFile.dump_psetinfo_to_npy", "parcels/particlefile.py:ParticleFile.write", "parcels/particlefile.py:ParticleFile.export", "parcels/scripts/convert_npydir_to_netcdf.py:convert_npydir_to_netcdf"]}
{"id": "C54", "title": "Velocities on C-grids with terrain-following levels cross the faces of the cells at the given speeds", "statement": "On a C-grid whose depth levels differ from place to place (s-levels, with U, V and W), sampling fieldset.UVW on a face of a cell returns a velocity whose component at right angles to the face is the value of the field on that face, also between two times; cells that share a face agree on it; a uniform flow is reproduced; between the faces the velocity of a box is linear; Scipy and JIT modes return the same.", "quantifier": "all convex cells on flat and spherical meshes, levels, positions in the cell, face values, times", "why_tests_cant": "The conditions hold at every point of every face of every shape of cell; tests sample a few points in a few cells.", "anchors": ["parcels/field.py:VectorField.spatial_c_grid_interpolation3D_full", "parcels/field.py:VectorField.eval", "parcels/tools/interpolation_utils.py:jacobian3D_lin_face", "parcels/tools/interpolation_utils.py:phi1D_quad", "parcels/include/parcels.h:spatial_interpolation_UVW_c_grid", "parcels/include/parcels.h:temporal_interpolationUVW_c_grid"]}
{"id": "C55", "title": "Every node of a field has the value and the coordinates its input has", "statement": "Whether a field is made from an array, from files at once or from files frame by frame (deferred_load), field.data holds at every time, level, row and column the value of the input at that time, level, row and column of the asked subset, with missing values and values beyond vmin and vmax replaced by 0 and the scaling factor applied; a transposed input is read transposed, latitudes that decrease are turned round together with the data; the grid has the coordinates of the same nodes; data of another shape are refused; the ways of reading give the same data.", "quantifier": "all arrays of two to four dimensions, numbers of files and of frames in them, subsets of indices, limits, factors, orders of loading", "why_tests_cant": "Which axis is added, removed or turned round depends on the dimensions of the data, the subset and the mode of loading; tests try a few combinations.", "anchors": ["parcels/field.py:Field.reshape", "parcels/field.py:Field.__init__", "parcels/field.py:Field.from_netcdf", "parcels/field.py:Field.computeTimeChunk", "parcels/field.py:Field.rescale_and_set_minmax", "parcels/fieldset.py:FieldSet.computeTimeChunk", "parcels/fieldfilebuffer.py:NetcdfFileBuffer", "parcels/grid.py:RectilinearGrid"]}
{"id": "C56", "title": "Particles released along a line or from a field are where they were asked for, and the density counts every particle once", "statement": "from_line places the particles at equal distances from start to finish, both included. from_field releases each particle in a cell drawn with probability proportional to the field in it, never in a cell where the field is 0, at the relative position drawn, so the field sampled there is positive. density adds the weight of every particle to the cell it is in and to no other; relative densities add up to 1 and densities scaled by area are weight per area.", "quantifier": "all lines, numbers of particles, fields, grids, random numbers, weights, positions, both modes", "why_tests_cant": "The draws are random and cells on edges, next to land or of unequal size are rarely among them; tests compare totals.", "anchors": ["parcels/particlesets/baseparticleset.py:BaseParticleSet.from_line", "parcels/particlesets/baseparticleset.py:BaseParticleSet.from_field", "parcels/particlesets/particlesetsoa.py:ParticleSetSOA.monte_carlo_sample", "parcels/particlesets/particlesetsoa.py:ParticleSetSOA.density", "parcels/field.py:Field.calc_cell_edge_sizes", "parcels/field.py:Field.cell_areas"]}
{"id": "C57", "title": "Runs with AdvectionRK45 consist of accepted steps only and take every particle to the end", "statement": "A run with AdvectionRK45 that ends normally has moved each particle by a chain of steps of Fehlberg's method in the direction of dt, without gaps, each with an error estimate of at most 1e-5 per second; repeated steps leave no trace and no particle goes beyond the end. Both modes take the same steps. Where velocities change at a limited rate every run ends, with every particle at the end; where they are polynomials of the time of degree at most 3 each particle is exactly where its water is.", "quantifier": "all velocity fields, sets of particles, time steps, output times, numbers of steps and repetitions, both modes", "why_tests_cant": "Tests run a few smooth flows and compare positions within a tolerance; a step lost or doubled when a repetition meets an output time, or a particle left behind at a front, does not show.", "anchors": ["parcels/kernels/advection.py:AdvectionRK45", "parcels/kernel.py:Kernel.execute_python", "parcels/kernel.py:Kernel.execute", "parcels/compilation/codegenerator.py:LoopGenerator.generate"]}
{"id": "C58", "title": "A field set that is written to files and read back has the same fields", "statement": "FieldSet.write followed by FieldSet.from_parcels with the same name returns every field under its name, with its mesh, levels and, at every node, the value and coordinates it had; the dates of its frames are the same. Read frame by frame, the frames in memory are those that were written. Other files are not touched.", "quantifier": "all rectilinear and curvilinear z grids, numbers of frames, levels, rows and columns, values, dates, names, further fields and files", "why_tests_cant": "Tests write one or two rectilinear fields that start at time 0 with linear interpolation and compare the data array only.", "anchors": ["parcels/field.py:Field.write", "parcels/fieldset.py:FieldSet.write", "parcels/fieldset.py:FieldSet.from_parcels", "parcels/field.py:Field.from_netcdf"]}
{"id": "C59", "title": "Fields that are read together have the coordinates, dates, values and units of their own files", "statement": "FieldSet.from_netcdf with several variables returns every field with the coordinates, mesh, dates and values that are in the files given for it, with the unit conversion of its own type; if each variable can be read alone, all can be read together and the fields are the same as alone, whatever grids are shared.", "quantifier": "all variables, names, file systems, patterns, numbers of files and frames, dimensions and indices for all or for each variable, with and without deferred loading", "why_tests_cant": "Whether a grid is shared depends on comparisons between every pair of variables; tests read U and V from files with the same coordinates and dates and look at the unit conversion of the first variable only.", "anchors": ["parcels/fieldset.py:FieldSet.from_netcdf", "parcels/fieldset.py:FieldSet.parse_wildcards", "parcels/field.py:Field.from_netcdf", "parcels/field.py:Field.collect_timeslices", "parcels/field.py:Field.computeTimeChunk"]}
