# Design

A Rocq (Coq 8.16.1) model of the logic of PyGnome (`/repo/py_gnome`) and proofs of the properties in `properties.jsonl`. This file is generated by `tools/gen_design.py` from `tools/design_head.md`, `tools/plan.py`, `tools/findings.md`, the claims and what `Print Assumptions` printed (`tools/collect_assumptions.py`).

## Conventions

- One component = up to four files: `XModel.v` (the code, function by function, each definition citing file and lines), `XSpec.v` (a small independent specification, in terms of what a user sees), `XProofs.v` (lemmas), `XProps.v` (the property theorems, each followed by `Print Assumptions`, with `Example`s `..._meets` showing that a concrete case meets the hypotheses).
- Exceptions are values (`res`, in `Py.v`). Loops are structural recursion, or fuel with an explicit out-of-fuel value that the theorems exclude.
- Model times and time steps are integers of microseconds. Masses and coordinates are rationals `Q` (no axioms). Reals `R` only where the code calls exp, log, powers or roots.
- External libraries, random draws, file systems, environment fields and subclasses are universally quantified arguments, so a theorem holds whatever they return.
- A property the code violates gets a theorem `..._refuted` with a concrete witness, and the strongest true part gets the suffix `_partial`. A `_refuted` theorem beside a property that is marked proved shows that a condition in its statement is needed.
- Theorem names begin with the id of the property.

## Trusted base

1. Coq's kernel (`coqc`; nothing else is switched off or bypassed).
2. What `Print Assumptions` lists: nothing at all for the theorems over Z, Q and lists; for those over the reals only axioms of Coq's own standard library. The table at the end of this file lists them for each theorem.
3. The reading of the Python, Cython and C++ sources, done by hand. Every definition cites the lines it models. There is no extraction and the code was not run.
4. The idealisations: floating-point rounding, overflow and NaN are not modelled except where a component says so (BBox and Langmuir have infinities and NaN, so has Dis, the land check has 32-bit wrap-around). NumPy is modelled as list operations; aliasing of arrays is modelled where it matters (Sc, Cache, Proj). Threads, processes and sockets are not modelled.
5. Behaviour of libraries outside /repo that the code relies on (the time axis of gridded, `zipfile`, `os.path`, `glob`), modelled from their documentation; the model files say so.

## Not modelled

- netCDF readers and gridded interpolation of currents, winds, ice (`environment/gridded_objects_base.py`, `environment_objects.py` except the ice-aware fields), unit conversion (`nucos`), grid topology.
- Rendering, shape files, JSON outputters for spills, currents and ice (`outputters/renderer.py`, `shape.py`, `json.py`, `image.py`), map canvas, colour maps. The schedule and the files of the NetCDF, binary, oil budget, GeoJSON and KMZ outputters are modelled.
- the missions of `Disperse`, the platforms, the barge cycle and the reports of `weatherers/roc.py`; the oil database.
- Most of the C++ library `lib_gnome` (file readers, CATS/ADCP/component movers, tides, shio).
- The web API, colander validation of single fields, logging.
- Floating-point rounding everywhere.

## What is modelled, by component

From the heads of the model files; the comment of each definition has the lines.

- **OrdColl** (Model of gnome.utilities.orderedcollection.OrderedCollection). Source: /repo/py_gnome/gnome/utilities/orderedcollection.py. Objects are an arbitrary type [Obj]; [sid] is [_s_id] (the stringified id of an object), with strings numbered by integers. Callbacks are opaque: an invocation is recorded in a log; callbacks that call back into the same collection are not modelled.
- **Land** (Model of the land check). Source: /repo/py_gnome/gnome/cy_gnome/cy_land_check.pyx and /repo/py_gnome/gnome/maps/map.py. int32_t arithmetic is modelled with wrap-around at 32 bits.
- **Proj** (Model of the pixel projections). Source: /repo/py_gnome/gnome/utilities/projections.py. Floating point numbers are idealised as rationals; the cosine of the mid latitude is a parameter; the cast to int32 is idealised as exact.
- **Map** (Model of the maps: beaching, refloating, leaving the map). Source: /repo/py_gnome/gnome/maps/map.py, model.py and spill_container.py. Floats are idealised as rationals; polygon tests are the parameter [on_map]; the projection is the GeoProjection of ProjModel.
- **Time** (Times: infinite times, active windows, rounding, conversions). Models gnome/utilities/inf_datetime.py, the active window of gnome/movers/movers.py (Process), gnome/utilities/time_utils.py, gnome/utilities/__init__.py (convert_longitude) and the longitude shifts of gnome/maps/map.py. A naive Python datetime is the integer number of microseconds since 1970-01-01T00:00:00; a timedelta is an integer number of microseconds.
- **Step** (The time stepping of the model). Models gnome/model.py: the constructor's time attributes, their setters, rewind, step, full_run, the iterator protocol, the sub-steps of the weathering and the callbacks of the collections. What the components do inside a step is not modelled here. A call into them is an event; an oracle says, for each event, whether the call raises, so that every crash point can be quantified over. Times and durations are in microseconds (see TimeModel); Python computes with floats that hold whole seconds exactly.
- **Release** (Releases and spills). Models gnome/spills/release.py (Release, PointLineRelease), gnome/environment/timeseries_objects_base.py (TimeseriesData.at, TimeseriesVector.at) and the release part of gnome/spills/spill.py. Times are microseconds (see TimeModel), floats are rationals without rounding. The time axis comes from the library gridded, which is not part of /repo: its constructor refuses times that do not ascend, index_of is numpy's searchsorted and interp_alpha the fraction of the interval that has passed.
- **Sc** (The data arrays of a spill container). Models gnome/spill_container.py (SpillContainerData, SpillContainer, FateDataView) and gnome/array_types.py. Array names are integers (Python strings, numbered); an array is the list of its rows; a row is an integer or a vector of rationals. Floats are rationals without rounding. What a spill or a substance writes into the rows of new elements, and what movers and weatherers write into existing rows, is a parameter.
- **Pair** (The pair of spill containers). Models gnome/spill_container.py:1099-1336 (SpillContainerPair) with the collections of spills of the two containers (OrdCollModel) and the check that runs as their callback (421-461, 514-520). Data arrays are in ScModel. A spill is its id and what == compares: whether it is on, its substance, and the rest, each numbered. Users can change a spill of the forecast container at any time; changes of the spills of the uncertain container are not modelled. == between spills is exact here.
- **Out** (When outputters write). Models the schedule of gnome/outputters/outputter.py and the calls the model makes (model.py:933-939, 978-979, 1134-1144). Subclasses write the step if on and _write_step is set after the base class's write_output (e.g. oil_budget.py:113-118). Times are microseconds, time steps whole seconds. Warnings, files, the cache and the surface concentration are left out.
- **Pip** (Points in polygons). Models the two tests of gnome/utilities/geometry: the C routine used for maps and spills (c_point_in_polygon.c:60-76 through cy_point_in_polygon.pyx) and the Python one (PinP.py). Coordinates are rationals: rounding of floats, NaN and infinities are not modelled.
- **Poly** (Polygons and sets of polygons). Models gnome/utilities/geometry/poly_clockwise.py and polygons.py. Coordinates are rationals: rounding of floats, NaN and infinities are not modelled. Metadata, which the code only passes on, are numbers.
- **BBox** (Bounding boxes). Models gnome/utilities/geometry/BBox.py. Entries are rationals (floats without rounding), the infinities and NaN.
- **Clean** (Cleanup options: skimming, burning, chemical dispersion). Models gnome/weatherers/cleanup.py and the update of fates in gnome/model.py. Times are microseconds; masses, areas and rates are rationals (floats without rounding or NaN). Of the elements only what cleanup reads and writes is kept. The views of the container through which the code works (ScModel.v) are replaced by what they stand for: the elements with the flag and some mass.
- **Beach** (Manual beaching). Models gnome/weatherers/manual_beaching.py. Times are microseconds, those of the table whole seconds; amounts are rationals (floats without rounding).
- **Wx** (Weathering: evaporation, natural dispersion, half-life decay, biodegradation). Models gnome/weatherers/{core,evaporation,natural_dispersion,bio_degradation}.py over the reals (floats without rounding, overflow or NaN; a division by 0 or root of a negative number is not numpy's and the theorems exclude it). What the environment gives (wind speed, waves, water) is an argument.
- **Spr** (Spreading, Langmuir cells and emulsification). Models gnome/weatherers/{spreading,emulsification}.py, lib_gnome/Weatherers_c.cpp (emulsify) and the part of gnome/spills/release.py that sets the first areas, over the reals (floats without rounding or overflow). Langmuir relies on what numpy does with infinities and NaN: there numbers are [fl].
- **Order** (The order of the weatherers). Models gnome/weatherers/__init__.py and Model._order_weatherers (gnome/model.py).
- **Bc** (The broadcaster of commands to model variations). Models gnome/multi_model_broadcast.py, class ModelBroadcaster. Each task is a process with its own copy of the model; here a state and a function that handles a command. Sockets, time-outs and pickling are outside: a command that is sent is received and answered.
- **Mv** (Movers written in Python). Models gnome/movers/movers.py (the integration schemes of PyMover), simple_mover.py, py_current_movers.py (CurrentMover), the move of py_wind_movers.py (WindMover) without uncertainty, ship_drift_mover.py, the ice factor of random_movers.py (IceAwareRandomMover) and the ice-aware fields of environment/environment_objects.py. Numbers are rationals (floating point is idealised); the cosine of a latitude in degrees is a parameter. Model times and time steps are in microseconds, a velocity in metres per second. Arrays of a spill container have one row per element.
- **Unc** (Uncertainty records of the wind and current movers). Models the bookkeeping of gnome/movers/py_wind_movers.py (WindMover) and py_current_movers.py (CurrentMover), as the model drives it in a step (model.py:1159-1226), together with the elements of the uncertain spill container. Times are whole seconds ([datetime_to_seconds]). What a record contains is a parameter; random numbers are arguments.
- **Wun** (The uncertain move of a wind mover). Models gnome/movers/py_wind_movers.py:226-410 over the reals: the growth of the two spreads, the draw of a record and what a record does to the wind. The bookkeeping of the records is in UncModel.v. Random numbers are arguments.
- **Cache** (The element cache). Models gnome/utilities/cache.py (ElementCache). NumPy arrays live in a store and are shared by reference, so that copying matters; what a file holds are values. Names of arrays and of mass-balance entries are integers. The directory of the cache is a map from file names to contents; '%06i' makes different names of different integers (cache.py:103-116).
- **Str** (Python strings and the parts of [str], [os.path] and [re.sub] that persistence uses). A string is the list of its code points. [os.path] is [posixpath]. None of this comes from /repo: it models the language and its library, as their references describe them.
- **Pers** (Save archives: extraction, validation, and the references between saved objects). Models [py_gnome/gnome/persist/save_load.py] ([References] 44-121, the archive part of [load] 144-162, [is_savezip_valid] 516-587, [zipfile_folders] 590-599, [extract_zipfile] 602-609) and [py_gnome/gnome/utilities/save_updater.py] ([extract_zipfile] 431-479, [sanitize_filename] 482-494).
- **Save** (Saving an object with everything it refers to, and loading it again). Models [py_gnome/gnome/persist/base_schema.py] ([ObjType._save] 260-325, [save] 327-369, [_process_supporting_file] 371-384, [load] 386-427, [hydrate_json] 429-494, [_load_supporting_file] 496-526, [_load_json_from_file] 528-541, [_deser] 137-155, [gen_unique_filename] and its helpers 965-1004) and [py_gnome/gnome/gnomeobject.py] ([GnomeObject.save] 890-903, [load] 930-959). Not modelled: how one class turns its own plain attributes into json and back ([to_dict], [new_from_dict], colander): the plain attributes of an object are one value of type [D] that survives json. Fresh unique ids given to new objects never equal a file name, so the entries that [register_refs] adds are left out. [update_savefile] does nothing to a file of the current version. The folder that is loaded from holds the members of the archive.
- **Ts** (Time series: the value at a time, the check of the order, the running average). Models lib_gnome/OSSMTimeValue_c.cpp (GetTimeValue, ClampToTimeRange, GetInterpolatedComponent, GetTimeChange, CheckStartTime, CalculateRunningAverage), gnome/cy_gnome/cy_ossm_time.pyx (get_time_value, check_time_in_range), the check of gnome/utilities/timeseries.py and the part of Wind.at (gnome/environment/wind.py) that looks up a time. Times are whole seconds; values are rationals (floats without rounding). An error code of the C++ code is [Raise IndexErr], which is what get_time_value makes of it; reading outside the table or an uninitialised variable is [Raise AssertErr]. The interpolation type is always LINEAR (set by the constructor, cpp:44, and by nothing else), so Hermite is left out.
- **Wind** (Point wind: units, coordinates, time zone and speed uncertainty). Models gnome/environment/wind.py (new_set_timeseries, timeseries, units, _convert_units, get_wind_data without times, set_wind_data, _set_timezone_offset, set_speed_uncertainty), gnome/utilities/transforms.py (wind conversions), gnome/utilities/convert.py (to_time_value_pair, to_datetime_value_2d, tsformat) and RayleighDistribution of gnome/utilities/distributions.py. Numbers are reals; the rounding of components to 14 decimals (transforms.py:67-68) is left out. A velocity unit is its size in metres per second (nucos converts velocities by factors); times are whole seconds and zone offsets whole seconds. Values between the entries are the subject of TsModel.
- **Rnd** (Randomness: windages, random walk, random walk in three dimensions, rise of droplets). Models gnome/utilities/rand.py (random_with_persistance), InitWindages.initialize of gnome/spills/initializers.py, the setters windage_range and windage_persist of gnome/spills/substance.py, the update of windages in prepare_for_model_step of the wind movers, the classes CyRandomMover, CyRandomMover3D, CyRiseVelocityMover of gnome/cy_gnome and the C++ classes Random_c, RandomVertical_c, RiseVelocity_c of lib_gnome. Random numbers are arguments: a function from the number of the call to the number drawn, so every theorem holds for every outcome of the generator. np.random.uniform(a, b) and GetRandomFloat(a, b) are a + u * (b - a) with u the draw, in [0, 1]. Numbers are reals (the C++ code rounds draws, the eps and the cosine of the latitude to single precision); time steps are whole seconds. The depth-dependent diffusion of Random_c is off in PyGNOME (bUseDepthDependent is never set) and left out, as is the argument array=None of random_with_persistance. Which elements the map then stops or beaches is the subject of MapModel, StepModel and LandModel.
- **Tf** (Tide flats). Models gnome/maps/tideflat_map.py: TideflatMap around any of the maps of MapModel, the base class TideflatBase (never dry) and SimpleTideflat (a polygon that is dry from one time to another), within the step of the model (MapModel.move_elements; model.py:981-1013, which gives both methods the time at which the step begins). Floats are rationals, times integers. Delegation of other attributes to the land map is not modelled.
- **Qry** (Queries on spill data). Models Model.get_spill_data (model.py:1932-2006): the text of the condition is split at '&&', each part at '||', each of these at white space into a property, an operator and a number. Text is the list of its character codes (white space: the ASCII ones). The data arrays of a container are columns of numbers (rationals) or vectors. The number is Python source for eval: decimal numerals with an optional minus sign are modelled, for other text RuntimeErr stands for whatever eval does.
- **Rvw** (Operations that work on a view of the container without writing it back). Models gnome/weatherers/roc.py (Response._remove_mass_simple, _remove_mass_indices, and the part of weather_elements of the response options Burn, Skim and Disperse that takes oil out of the elements) and gnome/ops/density.py (init_density, recalc_density), on the containers and views of ScModel.v. Floats are rationals without rounding; the amounts that a response option plans to collect are parameters (RocModel.v has the plans). Not modelled: the logging, the units, and aggregate (called again afterwards).
- **Roc** (Response options: the plans of a burn and of a skimming system). Models gnome/weatherers/roc.py: Response (the time series of an operation), Burn (prepare_for_model_run, prepare_for_model_step, _collect, _transit, _burn, _clean, and the accounts of weather_elements) and Skim (prepare_for_model_step, _collect, _transit, _offload). Times are rational seconds, volumes rational numbers; floats are rationals without rounding. The thickness of the slick, the mean water content and whether the operation is scheduled are those of the time step (the code reads them again, unchanged, in every round). The unit conversions of the library are factors: [gal] gallons in a cubic foot, and multiplication and division by it are inverse. What the elements really lose (_remove_mass_simple, RvwModel.v) is a parameter. Not modelled: Disperse's missions (simulate_boat, simulate_plane), Platform, the barge cycle of Skim, reports, areas covered, and the counters of burns.
- **Oil** (The properties of an oil: density, the arrays of new elements, the mass balance). Models, over the rationals: - [GnomeOil.get_densities], [bounding_temperatures], [_get_reference_densities], [_vol_expansion_coeff], [density_at_temp] (one temperature at a time), with the functions [density_at_temp] and [vol_expansion_coeff], from py_gnome/gnome/spills/gnome_oil.py; - [_pick_water] and [initialize_elements] of [Substance], [NonWeatheringSubstance] (spills/substance.py) and [GnomeOil] (spills/gnome_oil.py), with [init_density] (ops/density.py) and [init_viscosity] (ops/viscosity.py); - [recalc_density] (ops/density.py) and [aggregate] (ops/aggregated_data.py). Not modelled: temperatures given as arrays (clipped at 1000 K as well), the reading of oil files, windages of new elements (see Rnd), containers with more than one substance. The viscosity of the oil at a temperature is a parameter here (see Vis). Floating point is replaced by rational arithmetic; a division by zero, where numpy writes an infinity or NaN with a warning, is [Raise ZeroDivErr] or [None].
- **Vis** (The viscosity of an oil and the vapour pressures of its components). Models, over the reals: - [GnomeOil.determine_visc_constants] and [kvis_at_temp], with the constants kept from the first call on, and [GnomeOil.vapor_pressure] with its [lru_cache(2)], from py_gnome/gnome/spills/gnome_oil.py; - [recalc_viscosity] and [_get_kv1_weathering_visc_update] from py_gnome/gnome/ops/viscosity.py. Not modelled: floating point, temperatures given as arrays, logarithms of viscosities that are not positive. [np.linalg.lstsq] is a parameter; what numpy documents of it (a least squares solution, of smallest norm if there are several) is a hypothesis of the theorems.
- **Set** (The start of a run: switches, references and checks). Models gnome/model.py: find_by_attr (713-754), Model._attach_default_refs (764-794), the steps 1 and 4 of setup_model_run (797-883), compile_env (1272-1285), validate and _validate_env_coll (1821-1890), set_make_default_refs (1892-1900), add_env (2008-2022) and the beginning of step (1170-1179); gnome/gnomeobject.py: gather_ref_as (344-364), _attach_default_refs (366-391), validate_refs (393-416); Spill._attach_default_refs (spills/spill.py:484-487) and Substance._attach_default_refs (substance.py:225-229); and check_inputs (model.py:1640-1819). Objects are numbers; what they hold is a heap. Collections are the lists of the objects one gets by iterating over them (what OrderedCollection does is modelled in OrdCollModel, the sorting of the weatherers in OrderModel). Not modelled: the data arrays (step 3 of setup_model_run, in ScModel), prepare_for_model_run of the single classes, the text of the messages.
- **Upd** (Changing an object from a dictionary). Modelled: [GnomeObject.update_from_dict] (/repo/py_gnome/gnome/gnomeobject.py, lines 492-547), [_attr_changed] (lines 552-595), [new_from_dict] (lines 453-470), and, in /repo/py_gnome/gnome/persist/base_schema.py, [ObjTypeSchema.register_refs] (lines 683-700), [process_subnode] (lines 702-768) and [ObjType._deser], [ObjType.deserialize] (lines 141-214). An object has a class and attributes; the class has a schema: a list of nodes, each with a name, a kind, and the marks 'update' and 'read_only'. An attribute is a plain value, a reference to an object or None, or a list (or ordered collection) of references. Every operation gives the state it leaves as well as its result, so that what a failed update leaves behind can be described. Not modelled: what the setters of single attributes do (each attribute is set to the value given and no setter raises), what plain values are and how text is turned into them (a plain value is a number, and a text that colander refuses is [JBad]), the checks of constructors (a new object has the attributes that its class gives it by default and those given), the classes that a node accepts, lists nested in tuples, the events that a collection fires, [drop] values, logging, and the classes with an [update_from_dict] of their own (Model, Wind, Appearance).
- **Eq** (Comparing objects). Modelled: [GnomeId._check_type], [GnomeId.__eq__], [GnomeId._diff] and [GnomeId.__ne__] (/repo/py_gnome/gnome/gnomeobject.py, lines 597-759), with what they use: [OrderedCollection.__eq__] (/repo/py_gnome/gnome/utilities/orderedcollection.py, lines 271-287), the comparison of Python lists, and [numpy.allclose] with its broadcasting for tables with one or two dimensions. Not modelled: the rounding of floating-point operations (numbers are rational, infinite or not a number), tables with more dimensions or with compound entries, what the messages say beyond the attribute they are about, properties that raise when they are read, dictionaries, items of lists that are the same Python number (they are compared as numbers), and the classes that add to this comparison (Model, Timeseries, Wind, SpillContainer, LEData).
- **Nc** (The NetCDF file of elements). Modelled: of [NetCDFOutput] (/repo/py_gnome/gnome/outputters/netcdf.py) the arrays that are chosen ([_update_arrays_to_output], lines 499-518), the file as [prepare_for_model_run] makes it (lines 520-634), the data that [write_output] adds for the forecast and the uncertain elements (lines 686-765) and what [read_data] returns (lines 837-1023). A file is its time stamps, its particle counts, the variables along the dimension 'data' and those of the group 'mass_balance'. Both dimensions are unlimited: writing behind the end makes all variables longer, with fill values ([None]). Not modelled: the attributes of files and variables, the types of the numbers, arrays with more than one number for an element (a row is one number here), compression and chunks, zipping, when a step is written (see OutModel.v) and the surface concentration; arrays whose length is not the number of elements are refused (numpy would accept the length 1).
- **Wav** (Water and waves). Modelled: the units of [Water] (/repo/py_gnome/gnome/environment/water.py: [get] lines 265-299, [set] 301-312, the units setter 346-363, [density] 334-343, [__init__] 205-246, [make_water_property] 59-72), and the waves of [Waves] (/repo/py_gnome/gnome/environment/waves.py lines 117-220) with the formulas of /repo/py_gnome/gnome/utilities/weathering/adios2.py, lehr_simecek.py and monahan.py. Numbers are real numbers, without rounding. [nucos.convert] is the conversion of linear units: a value in a unit is first shifted and then scaled to the reference unit of its kind; the shift and the scale of each unit are arguments. [gsw.rho] is an argument. Not modelled: warnings and logging, direct changes of the dictionary of units, attributes set without [set], masked winds, [energy_dissipation_rate] and [peak_wave_period]; a wave is computed for one point.
- **Gc** (Gridcur files). Modelled: /repo/py_gnome/gnome/environment/gridcur.py: [read_file] (lines 137-192), [write_gridcur] (195-238), [make_grid_arrays] (240-271), [init_from_gridcur] (70-134) and [from_gridcur] (53-67). A file is a list of lines, a line the list of the words it has between blanks. A word is a whole number, another number (perhaps nan) or anything else. Numbers are rationals or nan, without rounding, but for the six decimals of the data, which are modelled (a tie goes up, where Python takes the even one). The tags are read with or without brackets in the same way, and [TIME] is followed by a blank. Every error of [read_file] is GridCurReadError, here [OSErr]. Not modelled: bytes, encodings, infinite numbers, the C++ reader of the same format, and what [GridCurrent] does with the arrays.
- **Fil** (Files written by the outputters). Models gnome/outputters/binary.py (BinaryOutput: its numbered files, the archive made of them and the contents of a file), geo_json.py:63-219 (TrajectoryGeoJsonOutput), weathering.py:77-119 (WeatheringOutput), oil_budget.py (OilBudgetOutput) and kmz.py (KMZOutput), with the calls the model makes (model.py:932-939, 953-955, 1138-1150, 1198, 1202-1225). A loose file is known by directory, stem, kind and number; the name with the number on at least three digits is taken to be different for different numbers. Directory 0 is the empty one, that of a file name without directory. Contents of files are opaque except where a section below models them. The file system fails only where a file is missing or a name is taken. Left out: the text of the KML, of the JSON and of the numbers, 32-bit rounding in the binary files, ice and image outputters, shape files.
- **Plm** (Plumes and splots). Models gnome/utilities/plume.py (Plume and PlumeGenerator) and, from gnome/spills/release.py, VerticalPlumeRelease (1478-1556) and release_from_splot_data (1639-1661). Times are whole microseconds, as in datetime, and the time step of the generator is a whole number of microseconds (a float of seconds in the code). Depths, mass fluxes and masses are rational numbers: rounding of floats is left out. [None] stands for numbers that NumPy cannot turn into a 32-bit integer (a division by zero, infinity, an overflow), which gives arbitrary integers and a warning.
- **Prl** (Polygon, grid and NESDIS releases; the time zone of a release). Models gnome/spills/release.py (PolygonRelease, GridRelease, NESDISRelease and the time zone of Release) and the functions of gnome/utilities/geometry/geo_routines.py they use, on top of ReleaseModel. Numbers are rationals without rounding. What shapely, trimesh, pyproj and geopandas compute is given: the triangles of a polygon, its area in square metres (None: NaN) and the points of its boundary; reading a shapefile gives the list of features. Random draws are given. Not modelled: arrays in place of lists of weights (their truth value raises), get_polygons and get_metadata, the setter of the polygons (which fails: it uses a name that is not defined), initial positions of a GridRelease (the same), saving.
- **Fld** (What the save files write for numbers, times, durations and file names). Models [persist/extend_colander.py] ([LocalDateTime] 23-55, the deserializers of the two kinds of time series 145-153, 169-178, [TimeDelta] 181-198, [FilenameSchema] 220-245, [NumpyArraySchema] 253-292), [persist/validators.py] ([no_duplicate_datetime] 36-52, [ascending_datetime] 55-66), the rounding to significant figures of [utilities/__init__.py] 169-218, and of [spills/gnome_oil.py] the copy of an oil (315-318), the check of its component arrays (364-373) and the share of an element's mass in each component (359-360). Numbers are exact rationals; [fl] is the conversion of a decimal number to a double ([float(text)]), an argument of every function that uses it. Arrays have one dimension, as all that the schemas of the package declare. The texts of dates are not modelled: a text is the wall clock it shows and the offset it shows, if any.
- **Spl** (Spills: the amount, its units, the substance, the number of elements and the windages). Models the part of a spill a script sets: Spill.__init__ (gnome/spills/spill.py:117-190), the setters of the substance (208-235), the number of elements (257-263), the amount (284-307) and the units (317-355), Spill.set_amount_uncertainty (389-413), the helper functions that make a spill and give its substance a windage (492-522, called by 524-957), the setters of a release's mass, rate and number of elements (gnome/spills/release.py:263-313) and of a substance's windages (gnome/spills/substance.py:138-182). A script is a list of operations on a world of substances, releases and spills. Substances and releases are objects: a spill refers to them, and several spills may refer to the same one. An operation that raises leaves what it changed before raising. Simplifications. Numbers are exact rationals. nucos is outside the repository: a unit is what nucos finds under the name given, that is a mass of so many kilograms, a volume of so many cubic metres, or something else; and a conversion between a mass and a volume raises nucos.InvalidUnitError, which is how spill.py uses it. Not modelled: units of None, the warnings, the substances given by the name of an oil (208-235 tries to make a GnomeOil), the density of an oil (taken as a number; see the component on oils), the positions and times of the release, GridRelease, which computes its own number of elements.
- **Mrg** (Models as collections of objects: what adding an object brings along, merging, finding, standard weathering). Models Model._add_to_environ_collec (gnome/model.py:1337-1372) and the callbacks that call it (340-355, 1374-1398) when a mover, weatherer or environment object is added or replaced, the collections filled by Model.__init__ before the callbacks are registered (259-273, 335), Model.merge (1614-1638), Model.contains_object (673-690), Model.find_by_class (692-711), Model.add_weathering (357-389) with the names of gnome/weatherers/__init__.py:73-82, Model.get_spill_property (1912-1929). An object is a number (its id). The references of an object are its attributes wind, tide, waves, water and current that are there and not None, in this order. A collection is the list of its objects in order: the component on ordered collections shows that this is what an OrderedCollection is. An environment object that is added has its own callback called, so that adding goes on through the references. Python recurses; here the recursion is bounded by the number of objects there are, and it is proved that this is never too little. Not modelled: the rewinding by the callbacks (component Step), the cache given to an outputter, references that are not environment objects (which environment.add refuses).
- **Mig** (Updating a save folder to the newest version). Models gnome/utilities/save_updater.py: update_savefile (58-90), the five steps v0tov1 (93-192), v1tov2 (195-261), v2tov3 (264-328), v3tov4 (331-372), v4tov5 (375-428) and their list (497), called by GnomeObject.load on a folder (gnome/gnomeobject.py:932-934), in place. A step is a program that reads the folder and makes changes to it one after the other (a file is written, a file is removed, version.txt is written) and may end with an exception; the changes made before the exception stay. An interruption is a prefix of these changes; a torn write leaves a file that cannot be read, because a file is emptied when it is opened for writing. A json file is the value of obj_type, initializers, weatherers, element_type, substance, of windage_range and windage_persist together, of id, and a number for everything else. Initializers are names of files, not objects. The order of the files is that of glob. Whether an oil can still be made, GnomeOil( **json_), is an argument. Not modelled: errors of the file system other than a missing file, messages, reading a zip file (component Pers).
- **Brd** (Broadcasting commands to copies of a model). Models gnome/multi_model_broadcast.py: ModelBroadcaster.__init__ (210-234), cmd (239-330), handle_child_exception (335-341), stop (343-364), _get_available_ports (378-388), _spawn_tasks (396-409), _set_uncertainty (411-425), _set_new_cache_dir, _disable_cache, _set_weathering_output_only (427-434), and ModelConsumer.handle_cmd (97-113). A child is the list of the commands it has run: what it answers is an arbitrary function of its number, of that list and of the command, a value or an exception. Whether its answer comes in time is an arbitrary function of its number. A socket of kind REQ does not send while an answer is awaited (ZMQError, here RuntimeErr); an answer that does not come in time is zmq.Again, here OSErr. with_traceback() without an argument is a TypeError. Values are integers. Not modelled: how answers are sent (send_unicode of bytes), files of sockets, the log, errors of pickle, stopping errors, the death of a process.
- **Nce** (Environment objects made from a file). Models gnome/environment/environment.py: Environment._subclasses (35, 44), env_from_netCDF (144-250), its attempt_from_netCDF (163-171), ice_env_from_netCDF (253-264) and get_file_analysis (267-278). A class is a number. Which classes are gridded variables, which class is one of which (issubclass), the required references of a class (environment_objects.py:806, 916: a dictionary of names and classes) and whether a class can be made from the file with a grid and references (from_netCDF returns or raises) are arbitrary. An object is its class and the grid and references it was made with; objects of the list are named by their position in it, which never changes. The grid of the file is arbitrary or cannot be read (ValueError). The metaclass of line 44 is an ordinary attribute in Python 3, so that nothing is ever added to Environment._subclasses. Not modelled: opening the files (179-197), the log, other keywords, the text of reports; the unbound name of line 276 is a RuntimeErr here.
- **Hul** (Hulls, contours and the JSON output of spills). Models gnome/utilities/hull.py: calculate_hull (21-82), calculate_contours (107-165); gnome/outputters/json.py: SpillJsonOutput.generate_cutoff_struct (116-145), the same in outputters/erma_data_package.py (905-933), and the records, bounds and contours of SpillJsonOutput.write_output (147-274). An element is a position, a spill number and values by column; positions and values are integers (only their order is used). concave_hull, buffer_hull (11-18) and union_all are arbitrary functions of what they are given. A geometry is a polygon, a multipolygon, a point, a line or another. A missing column is a KeyErr, a list that is too short an IndexErr, a missing method an AttributeErr. In line 239 a set of small integers is taken in the order of first appearance. Not modelled: NaN, rounding of the values (166-169), additional data, the GeoDataFrame of line 68, the base class (whether a step is written).
- **Bna** (Reading BNA files). Models gnome/utilities/file_tools/haz_files.py: GetNextBNAPolygon (16-88) and ReadBNA (112-159). A file is the list of its lines, each with its end of line and so not empty; readline returns an empty text at the end of the file. A text is a list of character codes. int() is modelled for ASCII decimals with white space around them (no underscores); what float() returns for a text, or that it raises, is arbitrary. A list of one number that is assigned to a row of an array fills the row, a list of another length than two is a ValueErr (numpy). Numbers are integers here: they are only compared. Not modelled: the size of the array before it is filled, opening and closing of the file, dtype.
- **Shp** (Shapefile output). Models gnome/outputters/shape.py: ShapeOutput (47-278) and gnome/utilities/shapefile_builder.py: ShapefileBuilder (22-75), ParticleShapefileBuilder (78-135) and BoundaryShapefileBuilder (146-216). A file name is a list of character codes without a separator of folders; the temporary folder and the folder of the output are dictionaries from names to files. Of an element only an id and a concentration are kept. Sorting a frame by concentration, the union of the hulls (hull.py, see Hul) and the files that a shapefile is made of are arbitrary. Whether a step is written (outputter.py, see Out) is an argument. Times are seconds. Names with characters that are special for glob, areas, optional columns, schemas and ContourShapefileBuilder are not modelled.
- **Tid** (Tide files and files from the server). Models gnome/environment/tide.py: Tide.__init__ (61-103), yeardata (127-140), scale_factor (142-144) and _obj_to_create (146-179); and gnome/utilities/remote_data.py: get_datafile (19-107). A text is a list of character codes, a file that is read as text the list of its lines, each with its end of line; as Python opens text files with universal newlines no line has a carriage return, and splitting at carriage returns (at most 4) gives the line itself. The scale factor in a tide file is arbitrary. The server is an arbitrary function from an address to what its reads give until the first empty one, or a HTTPError (an OSErr). urljoin is put for names without special characters: what follows the last slash of the base is replaced, and the base ends with one. Not modelled: the parents of a folder, the C++ objects, the data range, the progress bar, buffering (a write is on the disk at once).
- **Avg** (Running averages, and output kept in memory). Models gnome/environment/running_average.py: RunningAverage.__init__ (81-119), past_hours_to_average (132-142), prepare_for_model_run (196-207), prepare_for_model_step (209-219) and create_running_average_timeseries (221-237); and gnome/outputters/memory_outputter.py: DataBuffer (12-15), MemoryOutputter.prepare_for_model_run (22-25) and write_output (27-87). The average of a wind over some hours from a time on and the test whether a time is within a series are C++ code: arbitrary functions here (they are modelled in TsModel). The values of a wind are a value of an arbitrary type; they may change between calls, as the average holds a reference to the wind. ReferencedObjectNotSet, NotImplementedError and UnboundLocalError are a RuntimeErr. Whether a step is written is an argument (it is modelled in OutModel). Not modelled: the conversions of time series, the mass balance (it is printed).
- **App** (Appearances). Models gnome/utilities/appearance.py: Appearance.__init__ (98-107), update_from_dict (109-118), to_dict (120-124) and __getattr__ (126-133), with what they use of gnome/gnomeobject.py: to_dict (473-490) and update_from_dict (492-547), for the schema of an appearance: obj_type and id, which are read only, and name (persist/base_schema.py:584-594). A value is a number, a dictionary a list of pairs with different names, the object what was set on it. A name that was never set is given by the object: an argument. The settings are names that the class does not use itself. Not modelled: the names taken from the dictionary of the caller, colormaps, the value update_from_dict returns.
- **Srf** (Surface concentration, hulls and contours). Models gnome/utilities/surface_concentration.py and gnome/utilities/hull.py (calculate_hull, calculate_contours). Coordinates, masses and values are rational numbers; ages are whole seconds. Taken from outside and left open: the kernel density estimate of SciPy (gaussian_kde, [None] for its LinAlgError), the cosine of a latitude in degrees, and the geometry of shapely and geopandas (concave hull, buffer, union).
- **Dst** (Distributions of droplet sizes and of winds). Models, from gnome/utilities/distributions.py, WeibullDistribution (188-260) and the density and distribution function of RayleighDistribution (263-275), and gnome/utilities/compute_fraction.py. Not modelled: the uniform, normal and lognormal distributions, which hand their parameters to numpy. The sizes that are drawn and the limits are rational numbers, as floats are; the draws of numpy.random.weibull are an arbitrary sequence. The fractions of the distributions are real numbers, and there lambda_ and alpha are positive, as the functions are not defined otherwise.
- **Dis** (Dissolution). Models gnome/weatherers/dissolution.py (123-527) and the functions of gnome/utilities/weathering it uses: stokes.py, ding_farmer.py, pierson_moskowitz.py (peak_wave_period), delvigne_sweeney.py and banerjee_huibers.py. Numbers are real; what floats make of a division by zero is kept, since the code relies on it: a result can be infinite or not a number, and numpy.nan_to_num takes such results away. Rounding and overflow are not modelled. The data are those of the elements at the surface that weather, as itersubstancedata gives them; wind and wave height of each element are given. The array partition_coeff, which nothing reads, and the methods state_variable and beta_coeff, which nothing calls, are left out.

## Properties: how each is modelled and proved, and what came out

- **C01 Ordered collection keeps insertion order** - OrdColl: slots `list (option obj)` + index assoc list; refinement to a plain list by induction over operations. *proved.* 
- **C02 Ordered collection length, membership and iteration agree** - OrdColl: corollary of the refinement invariant. *partial.* len, in and iteration agree; values() does not after replacing by an object already present (finding).
- **C03 Positional and id lookup agree with iteration order** - OrdColl: get/index modelled through sorted live slots; refinement. *proved.* 
- **C04 Assigning oc[k] replaces the k-th element** - OrdColl: partial theorem (no holes) + refutation witness. *partial.* False in general because assignment uses the raw slot number; proved for collections from which nothing has been removed.
- **C05 Collection callbacks fire exactly once per change** - OrdColl: callback log in the state; invariant over histories. *proved.* 
- **C06 A full run visits every step time exactly once** - Step: state machine of step/rewind/full_run with an oracle for failures; induction on the number of calls. *proved.* What components do inside a step is abstracted to events; the hypothesis is that none fails and the weathering sub-steps exist.
- **C07 The number of steps covers the duration and no more** - Step: Z.div laws over microseconds. *proved.* Time steps and durations must have the sign of the direction; the refuted theorem shows what happens otherwise.
- **C08 Running backwards mirrors running forwards** - Step: constructor/setter histories; refutation witness + theorem for the orders that work. *partial.* False for a negative time_step or no time_step given together with run_backwards=True: the number of steps is stale and the run stops after step 0.
- **C09 Weathering sub-steps tile the model time step** - Step: range/zip modelled literally; list induction. *proved.* The refuted theorem shows that the bounds of the statement are needed.
- **C10 Setting changes that invalidate results rewind the model** - Step: edit operations with the callback table. *partial.* False for outputters (no callback) and for shortening the duration of a backward run; spills and removal of weatherers do not rewind either.
- **C11 A process is active exactly when its window contains the step midpoint** - Time: window test over extended times. *proved.* 
- **C12 Infinite times compare as a total order with datetimes** - Time: operators per class incl. reflected dispatch; order laws. *proved.* 
- **C13 Release count is monotone, bounded and starts at zero** - Release: Q arithmetic, interpolation and ceil modelled; invariant over call sequences. *proved.* Floats idealised as rationals. Instantaneous releases release everything at release_time, continuous ones nothing yet at release_time itself.
- **C14 Total released does not depend on how the run is cut into calls** - Release: corollary. *proved.* For PointLineRelease; other classes share the count logic.
- **C15 Released mass adds up to the spill amount** - Release: Q sums. *proved.* Floats idealised as rationals.
- **C16 All data arrays of a spill container always have the same length** - Sc: arrays as lists keyed by name; invariant over histories of calls. *proved.* C16_plain_runs_aligned is the property as stated (rewind, prepare, release, removal, failing releases included). C16_arrays_aligned extends it to splits, views and replaced arrays under the conditions of ScSpec.tidy; the refuted theorems show that each condition is needed.
- **C17 Element ids are unique and increasing within a run** - Sc: id counter; invariant. *partial.* Holds for every history without splits, without writes to the ids and without failing releases. A release that raises after the arrays were lengthened leads to ids handed out twice; split_element gives all parts the same id.
- **C18 Removing elements keeps the others untouched** - Sc: filter lemma. *proved.* 
- **C19 Weathering a fate view changes only the selected elements** - Sc: the views of FateDataView with aliasing and copies; refutations for stale and aliased views. *partial.* Holds if the view has no arrays left over from an earlier request and is not an alias of the container that has since lost elements; both cases are refuted without the condition.
- **C20 Splitting an element conserves mass and position in the array** - Sc: insertion with divided masses. *partial.* Holds when no view aliases the container; masses are exact for equal parts and for fractions that add up to 1 exactly (total = mass * sum of fractions). Fractions are accepted within 1e-5 of 1 and may be negative.
- **C21 Forecast and uncertain spills stay in lock-step** - Pair: two ordered collections. *partial.* Full statement is false: a refused addition, adding a spill twice, assignment after a removal, and a failing switch break the correspondence (refuted theorems). Proved for all histories without those, and that an error-free rewind restores equal contents from any state.
- **C22 A cleanup option operates for exactly the overlap with its active window** - Clean: refutation + theorem under the guard that the window is not inside one step. *partial.* False as stated: an option whose window begins and ends within one step operates from the beginning of that step (C22_refuted, C22_skim_short, C22_disperse_short). Proved for every other alignment. With weathering substeps it operates for the whole step in each substep.
- **C23 Marking picks the shortest prefix of elements that covers the requested mass** - Clean: prefix function over Q masses. *partial.* Proved for a positive requested mass and water fractions below 1. A requested mass of 0 marks one element. The skimmer marks again at each step because it looks for a flag other than the one it sets.
- **C24 Cleanup never removes more than is there and books what it removes** - Clean: Q. *proved.* For element masses that are sums of non-negative components. Findings: without an efficiency marking raises TypeError; the second of two dispersions raises TypeError when it weathers.
- **C25 Weathering conserves mass** - Wx (R), Beach and Clean (Q): sum of masses plus what is booked is constant. *partial.* Proved for evaporation, natural dispersion of floating oil (default algorithm), biodegradation and manual beaching. False for half-life decay, which lowers masses but adds nothing to the mass balance, and for dispersion of oil heavier than the water, which gains mass. The Li2017 dispersion algorithm and dissolution are not modelled.
- **C26 Half-life decay does not depend on the step size** - Wx: R, exp laws. *proved.* Full statement, for positive half-lives.
- **C27 Fay spreading never shrinks nor exceeds the terminal area** - Spr: R (Rpower). *proved.* Full statement, for positive time steps; the bound is the volume over the least thickness, or the present area if that is already larger.
- **C28 Langmuir coverage is a fraction between 0.1 and 1** - Spr: numbers with infinities and NaN. *proved.* Full statement, with infinities and NaN as numpy has them.
- **C29 Weatherers run in the documented order however they were added** - Order: stable sort of class ranks over OrdColl histories. *proved.* Full statement for weatherers of the listed classes, after any history of calls on the collection except assignment by position. A weatherer of an unlisted class (a subclass of a listed one included) makes the setup raise TypeError unless it is the only weatherer.
- **C30 Land check walks a connected straight path and terminates** - Land: Bresenham loop with fuel and 32-bit wrap-around, closed-form invariant of the error term. *proved.* Pixel coordinates up to 2^28 in magnitude.
- **C31 No element passes land unnoticed** - Land: invariant over the walk. *proved.* 
- **C32 Land check never reads outside the raster** - Land: reads return None outside the grid; theorem: never None. *proved.* 
- **C33 The layered (multi-resolution) check agrees with the full-resolution check** - Land: refutation witness + one direction. *partial.* False: the coarse walk can step past the block of a land pixel. A layered hit is always the full-resolution hit, and the checks agree on movements inside one row or column of blocks.
- **C34 Coarse rasters mark every block that contains land** - Land: block any. *proved.* 
- **C35 Beached elements stop next to the land they hit** - Map: beaching over the land check. *proved.* Floats idealised as rationals; pixel coordinates up to 2^28.
- **C36 Refloating moves only land elements and puts them back into water** - Map: refloating with the random draws as input. *proved.* 
- **C37 Off-map mass is booked once** - Map; refutation for ParamMap. *partial.* Proved for GnomeMap and RasterMap; false for ParamMap, which books lost mass three times.
- **C38 Single-point and array land queries agree** - Map: refutation for flag values, theorem for 0/1 rasters. *partial.* Proved for rasters of 0 and 1; false for other raster values, and in_water is wrong off the raster.
- **C39 The cache returns what was saved** - Cache: store of shared arrays, directory as a map; invariant over histories. *partial.* Proved with a store of shared arrays (later changes of containers or of loaded arrays do not reach the cache) for every history of an enabled cache in which no step is saved again without its uncertain container and names are distinct. A step saved again without the uncertain container returns the old one (C39_stale_refuted); a step saved while disabled is lost at the next save (C39_disabled_refuted); a mass-balance name equal to an array name loses the array (C39_names_refuted); a missing directory given by the user is not made (C39_directory_refuted).
- **C40 Output is written at the documented schedule** - Out: accumulated schedule modelled; closed form by induction. *partial.* Proved for all forward runs including start times and single steps, except that output at every step (no interval) with output_zero_step off writes only the last step; sub-second intervals divide by zero.
- **C41 Backward runs write output at the mirrored times** - Out: refutation witness, theorem for dividing steps. *partial.* False in general: the residue of negative numbers is wrong and output_start_time is inverted. Proved when the time step divides the interval or the interval divides it.
- **C42 Extracting a save file writes only inside the target folder** - Pers: file system, path resolution and extraction over strings (Str). *proved.* Both extractions (persist/save_load.py and the one GnomeObject.load uses, utilities/save_updater.py), with the file system, path resolution and failing writes modelled; symbolic links are not. Findings: members with the same last part overwrite each other silently; load of an archive named without a directory extracts into the working directory and returns None; cleaning a member name rewrites the text of every json file.
- **C43 Accepted save files have safe names and bounded sizes** - Pers: validity function and an independent list of conditions. *proved.* Exact characterisation of the accepted archives. The size quotient is exact (a float in the code). Finding: a file named just .json has no extension for splitext and is not limited.
- **C44 References name every object once and retrieve it** - Pers: dict state machine; refutations + guarded theorem. *partial.* Holds for histories in which objects are true, explicit names are non-empty, and an explicit name of the automatic form has a number not beyond the number of references. Refuted without these conditions.
- **C45 Point-in-polygon does not depend on how the polygon is listed** - Pip: over Q; edges as unordered pairs. *proved.* For any polygon and point, in exact arithmetic.
- **C46 Adjacent polygons never both claim a point** - Pip: parity additivity. *proved.* Cutting a polygon along a chord: the answers of the pieces add up (exclusive or), for points on the boundary too.
- **C47 Points outside the bounding box are outside the polygon** - Pip. *proved.* 
- **C48 Polygon orientation test flips under reversal** - Poly: signed area over Q. *proved.* Zero-area polygons count as clockwise either way (C48_flat).
- **C49 A polygon set returns the polygons that were appended** - Poly: flat array + index, histories of appends. *partial.* Sets built by appending are proved for every history. A set made from data cannot be appended to, and equality ignores where one polygon ends and the next starts.
- **C50 Bounding box operations form a lattice** - BBox: over Q with infinities and NaN. *partial.* Every law is proved for proper boxes (and for the null box in Merge and equality). The null box overlaps the infinite box, and fromBBArray of a list with a null box loses the others.
- **C51 Pixel/lon-lat conversion round-trips** - Proj: over Q with floor. *proved.* 
- **C52 Longitude conversion normalises and keeps the meridian** - Time: over Q. *partial.* The -180..180 conversion is only right for longitudes in (-540, 540]; 0..360 is right everywhere.
- **C53 Wind uncertainty parameters stay aligned with elements** - Unc: list state machine driven as the model drives it. *partial.* Proved for WindMover and CurrentMover and runs in which elements are removed only in steps in which the mover is active and past its delay. Elements removed while the mover is inactive shift the records to other elements (C53_inactive_refuted); elements removed before the delay is over stop the run with IndexError (C53_delay_refuted).
- **C54 Manual beaching removes exactly the observed volume** - Beach: schedule over Q. *partial.* False as stated: a step that begins before the start and ends after it raises IndexError; an option without a start counts from 1970. Proved for all other runs, for tables of whole seconds.
- **C55 Time rounding and time conversion round-trip** - Time: over Z. *proved.* The refuted theorem shows that the 32-bit range is needed.
- **C56 Movement schemes agree on steady fields** - Mv: over Q. *proved.* Full statement for CurrentMover, WindMover (container that is not uncertain) and SimpleMover and the three schemes; the cosine of the latitude is a parameter.
- **C57 Ice damping factor lies between 0 and 1 and decreases with ice cover** - Mv: over Q. *proved.* Full statement.
- **C58 Every task of a multi-model broadcast is addressed by its pair of uncertainties** - Bc: product indexing, tasks as state machines. *proved.* Full statement for distinct levels (the condition is needed: C58_duplicate_refuted); in addition the task of a pair evolves as a model of its own under the calls addressed to it. Processes and sockets are outside the model.
- **C59 Coordinate conversions leave their input alone** - Proj: arrays as mutable cells with a dtype; refutation for float arrays. *partial.* False for float arrays, which to_lonlat and RectangularGridProjection.to_pixel change in place.
- **C60 On a parameterised map elements stop on the shoreline** - Map: ParamMap. *proved.* 
- **C61 InfDateTime accepts the dates between its bounds** - Time. *proved.* 
- **C62 The text of a time zone offset denotes the offset** - Time: text of an offset parsed back. *proved.* Float rounding idealised.
- **C63 Shifting map longitudes moves every point that needs it** - Time: longitude shift of maps; refutation when the points lie on both sides. *partial.* False when the points lie on both sides: the swallowed ValueError leaves all of them unshifted.
- **C64 Release windows of a run tile the run** - Release + Step: windows asked for by the model. *proved.* For an odd number of microseconds the half step is rounded and the windows do not meet.
- **C65 Model time always equals start plus step times time step** - Step: invariant over histories. *proved.* Except after assigning a time step of 0, which raises but stays.
- **C66 A failing step never skips and is never silent** - Step: oracle for failures at any event. *proved.* full_run takes a StopIteration raised by a component for the end of the run (C66_full_run_reports_refuted); any other error is reported.
- **C67 Point and line releases start on their line** - Release: interpolation between the ends. *proved.* 
- **C68 Custom positions are used evenly** - Release: counts of a repeated pattern. *proved.* 
- **C69 A rewound release behaves like a new one** - Release: rewind compared with the state of a new one. *partial.* False for PointLineRelease: rewind keeps _previously_released, so bulk_init_volume of a continuous release accumulates over runs. Numbers, masses and positions are those of a new release.
- **C70 num_per_timestep releases that many per step** - Release. *partial.* True for Release; PointLineRelease does not hand num_per_timestep to its base class.
- **C71 In a backward run a spill appears at its release time** - Release: refutation. *partial.* False: the count ignores the direction of time. Everything is released at once if the release time is not later than the first time asked for, nothing otherwise.
- **C72 Movers act independently and add up** - Map: sum of displacements. *proved.* Floats idealised as rationals.
- **C73 Writing output after the run selects the same steps** - Out: post-run loop against the schedule. *partial.* Proved for forward runs with time steps under a day and output_last_step on; each condition is needed.
- **C74 The two point-in-polygon tests agree** - Pip: both algorithms over Q. *proved.* The second theorem shows that the condition is needed.
- **C75 Point-in-polygon means the geometric interior** - Pip: even-odd rule by an independent geometric specification. *proved.* 
- **C76 Thinning a polygon does not change what is drawn** - Poly: rounding to pixels and removal of repeats. *proved.* 
- **C77 Releases from polygons follow weights and stay inside** - Poly: triangles and weights, random draws as input. *proved.* Triangulation and random draws are arbitrary inputs.
- **C78 The efficiency of a cleanup option is a fraction** - Clean: setter and constructor. *partial.* False as stated: a number out of range given to the constructor or after None makes the efficiency NaN.
- **C79 A cleanup option never takes more over a run than it was set up for** - Clean: accumulated amounts over a run. *partial.* False when the window is within one step (C79_skim_refuted). Proved otherwise; for the burn from the step after marking.
- **C80 The fate of an element follows its status, its depth and its substance** - Clean: update of fates. *proved.* Full statement.
- **C81 More wind or more time never evaporates less** - Wx: monotonicity over R. *proved.* Full statement.
- **C82 Evaporation does not depend on how many elements represent a spill** - Wx: splitting an element. *proved.* Full statement.
- **C83 Fay spreading does not depend on how many elements represent a spill** - Spr: splitting. *proved.* Full statement.
- **C84 The least thickness of a slick grows with viscosity between 1e-5 and 1e-4 m** - Spr: refutation by interval of powers. *partial.* False as stated: just below a viscosity of 1e-4 the limit exceeds 1e-4 (by 1e-9) and then falls. Proved otherwise.
- **C85 Elements released together share the initial area in proportion to their volumes** - Spr: shares. *proved.* Full statement.
- **C86 Langmuir coverage falls with the wind between the reported wind bounds** - Spr: monotonicity of roots. *proved.* Full statement, for positive thickness and buoyancy.
- **C87 Emulsions only take up water and never more than the oil can hold** - Spr: emulsification. *proved.* Full statement, for oils whose largest fraction of water is in (0,1).
- **C88 Spills spread independently of each other** - Spr: several spills; refutation for Langmuir. *partial.* Proved for spreading, and for Langmuir cells if the wind is the same everywhere; false for Langmuir cells otherwise: the strongest wind over any spill is used for all.
- **C89 Higher-order movers integrate a time-varying uniform current exactly** - Mv: the schemes as quadratures. *proved.* Full statement; the condition on the start is needed: from a start inside a second the later stages are evaluated at times counted from the start of the second (C89_fraction_refuted).
- **C90 Uncertain moves stay within the uncertainty of the mover** - Mv: bounds on the draws. *proved.* Full statement. In addition SimpleMover's default velocity is refused (C90_default).
- **C91 The ice-aware current lies between the current and the ice velocity** - Mv. *proved.* Full statement.
- **C92 The ice-aware wind is the wind reduced by the ice** - Mv; refutation. *partial.* Holds for winds with no component below min_val (the default, 0); a negative component is replaced by min_val (C92_negative_refuted).
- **C93 Ship drift moves the elements in water by windage times wind** - Mv; refutation. *partial.* Holds when all elements are in water or there is a single element; with a mix of statuses the call raises ValueError (C93_mixed_refuted).
- **C94 Wind uncertainty turns and scales the wind, starting from no change** - Wun: rotation and scaling over R. *partial.* Winds of at least 1 m/s. A lighter wind is replaced by a random move that is not scaled by the time step (C94_light_refuted).
- **C95 A saved object graph loads back as a copy with the same sharing** - Save: graph of objects with ids, saved to named members and loaded into a heap; simulation by induction on the graph. *partial.* The full statement without conditions is false; each condition on names and data files has a refutation beside it. The attributes of one object are one value that survives json (to_dict/new_from_dict of the single classes are not modelled). Findings: two data files with the same last part lose one silently; a data file called like an object's json replaces it; names with braces raise; a root whose name begins with a dot is saved but not found; the 256th object of a name cannot be saved.
- **C96 The value of a time series is interpolated linearly** - Ts: table look-up with its search as total functions; correctness of the search by induction, values between neighbours on the straight line. *proved.* Linear interpolation type (the only one the Python classes can set).
- **C97 A time series whose times do not ascend is refused** - Ts: the order check of arrays is equivalent to ascending; counterexample for lists. *partial.* Proved for numpy arrays. False for a list of (time, value) pairs: only the form of the entries is checked, so an unordered list is accepted and gives values that are not in the data (C97_list_refuted).
- **C98 The running average of a time series is the mean speed of the past hours** - Ts: the averaging loops refine the hourly trapezoid mean, by induction over both loops. *partial.* Proved when extrapolation is allowed or the model time is before the series. Otherwise the hours before the record count as calm (C98_calm_refuted).
- **C99 Wind data come out as they were put in, whatever the units and coordinates** - Wind: storage in components and m/s over reals; conversions preserve the air velocity (trigonometry of arctan2), uniqueness of polar form. *partial.* Proved for speed/direction in both spellings and for components given with the enumeration. False for components given with the string 'uv' in units other than m/s: the second component is not converted (C99_uv_refuted). Reals; the rounding to 14 decimals is not modelled.
- **C100 A wind's timeseries attribute shows the wind in use** - Wind: the shown series against the stored one after each operation; counterexamples. *partial.* Proved after assigning `timeseries` (or constructing) with speed and direction. False after set_wind_data in other units than m/s, after changing `units`, for components and after a refused assignment.
- **C101 Setting wind data leaves the caller's data alone** - Wind: the caller's array after each call; counterexample. *partial.* Proved for lists and for arrays in m/s. False for arrays in other units: they are converted in place (C101_refuted).
- **C102 Changing a wind's time zone shifts its times and keeps its winds** - Wind: the shift re-enters the shown data; same air velocities at shifted times. *partial.* Proved for winds whose timeseries attribute shows the wind (C100). Otherwise the speed is converted a second time (C102_refuted).
- **C103 Speed uncertainty raises or lowers all winds as asked** - Wind: closed form of the Rayleigh factor, compared with 1 through exp(-pi/4). *partial.* Down: proved. Up: raises exactly if 0.5 - scale < exp(-pi/4); a scale of 0.01 lowers the wind (C103_small_refuted) and 0.5 gives speeds that are not finite (C103_half_refuted).
- **C104 An element's windage stays in its range, and persists as asked** - Rnd: windages as lists of reals, draws as arbitrary numbers in [0,1); induction over releases and steps; counterexample with a short step. *partial.* Holds after any history in which no step is shorter than a finite persistence. A shorter step widens the interval: with 1-4 % and 900 s, a step of 100 s can give a negative windage (C104_short_step_refuted). Swapped ranges are accepted by the setter and refused at the first release.
- **C105 The randomness of windages does not depend on the time step** - Rnd: algebra of the scaled interval; counterexample with a persistence over 900 s. *partial.* The law holds for persistences of 1 to 900 s. Larger ones are accepted and treated as infinite: the windage is never redrawn (C105_long_persistence_refuted).
- **C106 The random walk moves floating elements, and no others, within its reach** - Rnd: one step of Random_c in degrees converted to metres, draws arbitrary in the disc or square; invariant of the settings over all histories. *proved.* In the first step of a run the draws lie in a disc, later in a square; both are covered.
- **C107 The three-dimensional random walk keeps elements in the water column** - Rnd: case analysis of the vertical move with arbitrary draws; counterexamples at the surface. *partial.* Holds if the mixed layer has positive depth and either its vertical coefficient is not 0 or the element is submerged. Otherwise a floating element can stay at the surface (C107_stays_at_surface_refuted). Where the surface is allowed floating elements are not moved horizontally either (C107_horizontal).
- **C108 Without diffusion below it, nothing leaves or enters the mixed layer** - Rnd: as C107, for a reach not larger than the layer; counterexample. *partial.* Holds if the reach of the step is not larger than the layer (and the layer less than 2500 m deep); otherwise reflection at the surface takes elements out of the layer (C108_long_step_refuted).
- **C109 The rise velocity of a droplet follows the two laws and has no jumps** - Rnd: the three branches over reals; monotonicity of the cubic on [0,1], continuity at both joints. *partial.* Everything about droplets lighter than water holds. A droplet denser than water and larger than 0.2 mm gets the velocity NaN (C109_dense_refuted).
- **C110 Rising changes the depth alone, by velocity times time, in either direction of time** - Rnd: list of moves with the C type of the time step; OverflowError for negative ones. *partial.* Forwards it holds. Backwards the call raises OverflowError, because the time step is declared unsigned (C110_backwards_refuted); so does the three-dimensional random walk.
- **C111 Elements on a dry tide flat do not move, and go on when it is wet again** - Tf: flat as an arbitrary predicate of place and time around the maps of MapModel; every element against its own life over any run; counterexample while the flat falls dry. *partial.* The flat is looked at as it is when a step begins, also for the place an element comes to at the end of it. With that reading everything holds over whole runs; but an element that comes to the flat in the step in which it falls dry is not stranded and moves on over the dry flat (C111_falls_dry_refuted).
- **C112 A tide flat that is never dry changes nothing, and none loses mass** - Tf: equality of runs with and without a wet flat by induction; conservation of mass as C37. *proved.* The mass balance is for maps without land and raster maps, as C37.
- **C113 A query on spill data returns the elements that meet its condition** - Qry: the text is split and evaluated as the code does; conditions printed from a syntax tree, the result compared with the elements that satisfy it; counterexamples. *partial.* Holds for conditions of groups (comparisons joined with ||) joined with &&, with spaces around operators, on properties that hold whole numbers. Fractions are cut off before comparing (C113_fraction_refuted), || binds more strongly than && (C113_precedence_refuted), other operators silently find nothing, positions and unspaced texts raise errors (C113_other_texts_refuted).
- **C114 A burn or skim takes from the elements what it books** - Rvw: the containers and views of ScModel; what is taken compared with the change of all masses; the case of copies proved for every container. *partial.* Holds when every element floats with mass. As soon as one element does not, the options work on copies that are not written back: mass is booked and nothing is removed (C114_take_refuted, for every container). Taking all the oil makes the next weatherer cut its arrays to length 0 and no others (C114_arrays_refuted).
- **C115 The density after a step is that of what is left** - Rvw: recalc_density on the views; density compared with that of a mixture; the case of copies proved for every container. *partial.* Holds when every element floats with mass. As soon as one element does not, recalc_density writes to the view of the floating elements and then copies back the (empty) view of all elements: no density is ever updated again (C115_density_refuted, for every container).
- **C116 Dispersing takes the wanted mass or all there is** - Rvw: one row per element; masses and accounts before and after. *proved.* 
- **C117 The plan of a burn uses up the time step** - Roc: the state machine of a burn; an invariant of its phases over all reachable states, termination of the loop from the hour that cleaning takes. *partial.* Proved for every state that is reached when the slick always has what was planned. After a shortage the missing mass in kilograms is added to the room in the boom in cubic feet, so that the burn takes negative time (C117_plan_refuted).
- **C118 What is in the boom is what was collected and not burned** - Roc: an equation between capacity, collected and burned volume, kept by every round of a step of at most an hour. *partial.* Proved for steps of an hour at most (from states without shortage). In longer steps a second cycle replaces what the first collected (C118_volumes_refuted).
- **C119 The accounts of the burns add up** - Roc: invariant over all histories of bookings, sums over the accounts of the systems. *proved.* 
- **C120 The rates of a skimming system are consistent** - Roc: the rates as rational functions of the settings; identities and bounds. *proved.* 
- **C121 A step of a skimming system uses up the time and keeps its accounts** - Roc: the state machine of a skimmer; invariant of its phases, termination from the time that filling the tank takes, accounts; counterexample for the amount of a fill. *partial.* Time, tank and accounts proved for every reachable state. The fluid booked when the tank becomes full is always 42 times the room there was (C121_fill_refuted): the time to fill it mixes a rate per minute with hours.
- **C122 The schedule of an operation is answered correctly** - Roc: look-up in a list of intervals against membership in intervals. *proved.* The last clause needs intervals that begin and end on time steps (C122_active); an interval shorter than half a step never takes place (C122_active_refuted).
- **C123 A second run of the model makes the same plans** - Roc: simulation between a new option and one that was run before; counterexamples. *partial.* Proved when the first run left no burn under way, no burn rate computed and no skimmer on its way or unloading. Otherwise the rest of the old burn is used for the new one, and the skimmer works before it is scheduled (C123_rerun_refuted).
- **C124 The density of an oil follows its measurements** - Oil: the index arithmetic of bounding_temperatures shown equal to a walk along the sorted list; induction along it; uniqueness of the sorted list. *proved.* Proved for oils whose fresh measurements are at different temperatures.
- **C125 The density of an oil is a continuous function of temperature** - Oil: slope bound of the expansion formula on one segment; the limit at the upper measurement. *partial.* Between neighbouring measurements the density changes no faster than the straight line. The full property is false: the expansion formula does not meet the upper measurement, so the density jumps there (909 to 900 in the example); the jump is at most the square of the difference over the density.
- **C126 New elements get the properties of their substance in the water of the model** - Oil: the arrays as a list of elements, slices from the end; the three sources of the water. *partial.* All but the density in the water of the model. That part is false: GnomeOil.initialize_elements does not pass the environment to Substance.initialize_elements, so the density is that in the oil's own water or in a new Water() at 300 K (a run gives the oil the first water of the environment only if it has none yet, see C132: an oil with other water keeps it). A call for 0 elements rewrites all elements.
- **C127 The density of floating oil after a step** - Oil: the update of one element; sums over components. *partial.* Proved for elements with mass when all elements float (see C115 for the rest). False for elements without mass: their density is NaN, and so is then the average of the whole spill.
- **C128 The mass balance counts every release once and averages by mass** - Oil: weighted sums, and an invariant over all histories of releases and other changes. *proved.* The averages are those of the elements while there is mass; C128_stale_refuted shows this condition is needed: with no mass left they keep their old values.
- **C129 The viscosity of an oil follows its measurements** - Vis: lstsq as a parameter with what numpy documents; normal equations from minimality, sign of the slope from the double sum over pairs of points. *partial.* The monotonicity needs one measurement or two different temperatures: with two measurements at one temperature the viscosity rises with the temperature. Without data the viscosity is 1 m2/s instead of an error, and measurements changed after the first call are ignored.
- **C130 Weathering makes oil more viscous** - Vis: monotonicity of exp, of the water factor and of the power. *partial.* Up to a water content of 99 per cent; at 100 per cent the viscosity is NaN.
- **C131 The vapour pressure of a component is that of the atmosphere at its boiling point** - Vis: the formula over the reals; the least recently used cache with an invariant over all sequences of calls. *partial.* For temperatures above 0.19 times the boiling point less 18 K, and as long as no boiling points are changed. Both conditions are shown to be needed.
- **C132 Objects without wind, water or other references get those of the model** - Set: objects in a heap; induction over the collections for the heads of the gathered lists, then over the objects that take references. *partial.* All but the last clause, which is false: what was attached once stays, so after the water of the environment is exchanged the oils and weatherers still use the old one.
- **C133 Spreading is on exactly when the area of the slick is needed** - Set: invariant of the loop over the weatherers; the second start from the first by uniqueness. *partial.* The last two clauses are false: a spreading or Langmuir weatherer that the user switched off is switched on, and with two spreading weatherers the last one is used, which after sorting may be the other one in the second run. With at most one of each C133_again holds.
- **C134 Finding objects in the environment and adding to it** - Set: induction over the lists. *partial.* With quash, add_env returns after the first item, so only one item is put in.
- **C135 A run starts only if every object has what it needs, and always if it has** - Set: validate as an equivalence, combined with C132 for the objects after the start. *partial.* C135_validate says exactly when validate refuses. A run that starts is complete except for Waves without references that do not take defaults. A complete model is refused when an object that takes defaults has its own water and there is none in the environment.
- **C136 check_inputs refuses impossible runs and warns about doubtful ones** - Set: induction over the spills; equivalences for the error, the flag and each message. *partial.* Exact conditions for errors, validity and every message. A positive time step with a negative duration is not refused.
- **C137 Sending an object back what it shows changes nothing** - Upd: objects in a heap, the text as a tree; induction over the text with the rank of the objects. *proved.* For any part of the description at every depth, by induction over the text.
- **C138 An update touches only the objects it names** - Upd: an invariant of every operation (what is new or named may change), for success and failure. *proved.* For success and failure alike, including texts of any malformed shape.
- **C139 An update writes what was sent** - Upd: the invariant with the table of known ids, induction over the schema and over the way to the object. *partial.* C139_written is about the object and all inside it reached through known objects, each named once; C139_new about a new object without an id. The clause about one id standing for one object fails inside new objects: ObjType.deserialize updates a known object with a table made from it alone, and another known object named there is duplicated.
- **C140 update_from_dict returns True exactly when it changed the object** - Upd: from C139, attribute by attribute; the counterexample computed. *partial.* Exact for plain and object attributes. A list or collection is emptied and filled in place and then compared with itself, so its changes are never reported.
- **C141 An update that fails leaves the object as it was** - Upd: the same induction for the failing case; the counterexample computed. *partial.* Plain and object attributes of the object are kept. A list or collection that was being read is left partly filled, and objects inside may have been updated.
- **C142 == says whether all that is saved of two objects matches** - Eq: values as trees (numbers, arrays, lists, collections, objects), == as a recursive function that may raise; the relation equal is inductive; induction over the value on the left. *partial.* The meaning of == is exact for all values. No exception for objects of the same make (float with number, arrays with arrays of the same shape, None with anything but those); a float against None raises TypeError and arrays of one size but different shapes ValueError.
- **C143 A faithful copy of an object is equal to it** - Eq: induction over the relation of copies. *partial.* For objects without NaN in what is compared. With a NaN (a float or an entry of an array) an object is not equal to itself.
- **C144 Equality of objects is symmetric and transitive** - Eq: the relation equal for other tolerances, by induction over values, from inequalities about absolute values; counterexamples computed with the tolerances of the program. *partial.* False as stated because the tolerance is relative to the right-hand side. Proved: b == a with the tolerances divided by 1 - rtol, chains with tolerances added, and both exactly when no compared attribute is a float or array.
- **C145 The list of differences is exact** - Eq: induction over the names of the schema. *partial.* Exact within a class. For different classes the form without fail_early goes on to read the attributes of the other object and can raise AttributeError.
- **C146 The NetCDF file gives back every step that was written** - Nc: the file as lists of times, counts and cells; invariant by induction over the steps written: each variable is the concatenation of the columns, the start index is the sum of the counts; reading is then slicing a concatenation. *partial.* Proved for every run without uncertainty and with uncertainty when both sets have as many elements in every step. False otherwise: both files are written from one start index, so with different counts (elements that leave the map are removed from each set) steps overwrite each other. A mass balance that is empty when the run is prepared and not later raises KeyError.
- **C147 Reading the NetCDF file at a time gives the nearest step** - Nc: argmin by induction over the list of times; the case before the start from the order of the times. *partial.* Proved for files of runs forward in time. In the file of a backward run every time but the start gives the first step.
- **C148 Indices into the NetCDF file** - Nc: arithmetic of indices; induction over the sum of counts. *partial.* False for an index below -n: -n-1 gives the time of the last step with the positions of the first elements.
- **C149 The arrays in the NetCDF file are those asked for by which_data** - Nc: membership in the list of arrays after the fold and the filters; counterexamples with two runs. *partial.* Proved for the first run of an outputter. Later runs never write an array that was missing in an earlier one, and keep the arrays of an earlier 'all'; read_data with 'most' returns no arrays (the string is read as a list of names).
- **C150 Quantities of the water keep their meaning in every unit** - Wav: induction over the calls of set; algebra of linear units; counterexamples with two units. *partial.* Proved for set, get and the constructor. False in two points: assigning units with an invalid one raises after the ones before it have been changed, so quantities change their meaning; the density is always computed in kg/m^3 and then read as if in the unit stored for it.
- **C151 Wave heights are bounded and grow with wind and fetch** - Wav: monotone functions of real numbers; both branches of the fetch compared at the threshold. *partial.* Growth with the wind is proved on the open sea. With a fetch the two formulas do not meet: at 226800 m a wind of 10.01 m/s raises lower waves than one of 10 m/s; proved instead that more wind never lowers the waves by more than a fiftieth.
- **C152 The fraction of white caps** - Wav: linear pieces and a minimum; a Lipschitz bound for the missing jump. *proved.* 
- **C153 Given wave heights and their wind** - Wav: powers of real numbers; the error of the rounded exponent bounded with exp x >= 1 + x. *proved.* Exact above the threshold, 4.43 m/s; below it the rounded exponent 0.813008 gives an error of at most 0.00001 m/s, and of the white caps of at most 1e-7.
- **C154 The wave period is that of the wind stress** - Wav: monotone powers; a value at 32 m/s for the counterexample. *partial.* False: the code has a factor of the wind too many (U * 0.71 * U**1.23), in every range of winds; 32 m/s give more than 1200 s where the comment in the code has 15.7 s. Growth with wind and height proved.
- **C155 A gridcur file that is written gives back what was written** - Gc: the text that is written has the form of C156; the array is filled cell by cell, extensionality of arrays; counterexamples. *partial.* Proved for grids at equal distances with two or more nodes in each direction, or any cells, times to the minute and units of one word. Not so otherwise: a single row of nodes comes back as nan, unequal distances are made equal, seconds are dropped, and of units with several words only the first is read.
- **C156 What a gridcur file says is what is read** - Gc: induction over the lines before the header, the lines of the grid and the lines of data (from the end), invariant: the array holds the last line for each place. *partial.* Proved for rows and columns counted from 1. Row or column 0 (and below) is not an error: it is taken for the last one. An empty line before the header raises.
- **C157 A current from a gridcur file has its contents** - Gc: from C156 and the shapes of the arrays. *partial.* Proved for init_from_gridcur; from_gridcur does not hand the setting on, the current never extrapolates.
- **C158 A binary output that is zipped holds the whole run** - Fil: induction over the steps of a run, invariant: the loose files are those of the steps so far; the run that loses its output is exhibited. *partial.* Proved if the last step is to be written (the default) or the run fails in between. If the last step is not to be written, the run ends with FileNotFoundError and the whole output of the run is lost: the loose files have been moved into an archive that is then overwritten by an empty one.
- **C159 Binary output that is not zipped stays on disk and touches nothing else** - Fil: as C158; counterexamples for a second run and for the files of others. *partial.* The files left are proved. A file name without a directory makes a second run fail with ValueError; with one, every file of that kind in the directory is deleted, whoever wrote it.
- **C160 A binary file gives back time, positions, ages and beaching** - Fil: the calendar lemmas of Time; division with remainder by four years. *proved.* Values are rational numbers: the rounding to 32-bit floats, which for the times amounts to up to 14 seconds, is not modelled.
- **C161 The oil budget table has the rows it should** - Fil: induction over the steps; hours and minutes by division; counterexamples. *partial.* The rows are proved; with time steps under a minute several rows have the same time. The constructor's on argument is ignored.
- **C162 GeoJSON files hold the elements of the forecast** - Fil: induction over the steps, the last write to a name wins; counterexamples. *partial.* Which files there are and what is returned is proved. The files never hold the forecast: the same file is written a second time with the uncertain elements, of which there are none in a certain run. round_data=False is ignored.
- **C163 An outputter that is off does nothing** - Fil: cases of the kinds of outputters and of on; induction over the steps; counterexamples. *partial.* Proved for outputters that look at on. TrajectoryGeoJsonOutput and WeatheringOutput write every step when off; binary, KMZ and NetCDF outputters that are off end the run with an exception if they were given to the constructor of the model, or if they do not write the first step and were never on.
- **C164 A KMZ file shows every written step for the time until the next** - Fil: induction over the steps; times of written steps as multiples; counterexamples. *partial.* Contents proved; the times of the layers meet if the output interval is a multiple of the time step or not set. Other intervals leave gaps and overlaps, and in backward runs a layer ends before it begins.
- **C165 A plume generator gives the elements it was told** - generator as a list of rounds, masses Q, int32 conversion can fail; telescoping of rounded-down totals by induction on the rounds; counterexamples. *partial.* The time step must divide the duration: otherwise the rest after the last whole step is left out with its elements, and a duration shorter than a step gives nothing.
- **C166 The elements of a plume release do not depend on the steps of the run** - run as a list of steps; the elements of the steps are a permutation of the closed form of the specification; counterexamples, also for the spill in a run. *partial.* True for the numbers and places of releases with an end, and for placing when the attribute num_released, which no class sets, exists and there are new elements. As the code is, placing raises AttributeError (num_released is never set), and a spill in a run calls neither method: the base class raises ValueError when the release time is reached. A step without new elements raises ValueError when positions are set (the slice of the last 0 is the whole array) and a release without end and number raises OverflowError.
- **C167 The elements of a plume weigh what has flowed** - floor bounds per point; totals over the rounds. *proved.* 
- **C168 A splot gives one element for each unit** - list of rows; floor of the third column, error for negative counts. *proved.* 
- **C169 A surface concentration depends on the oil of its spill alone** - kernel estimate and cosine as arguments; loop over hour bins with fuel that is shown to suffice; value per element characterised; counterexample. *partial.* The value is that of the estimate for the bin of ages of one hour the element is in, which leaves out older oil: two elements of a spill at one place can have different values. An unknown algorithm is refused only if there are elements.
- **C170 Contours hold the elements between their cutoffs** - hull as an argument; contours equal a closed form over spills and cutoffs; cover lemma for ascending cutoffs; counterexamples. *partial.* True of two or more ascending cutoffs with all keys; a single cutoff leaves out the elements above it; the documented structure without color and cutoff_id raises KeyError; a value equal to a cutoff is in two contours.
- **C171 Hulls hold the elements of their spills** - hull and union as arguments; characterisation of the output list. *proved.* 
- **C172 Sizes that are drawn are within the limits** - random draws as an arbitrary sequence; loop with fuel; induction over the array; counterexamples. *partial.* Within the limits for all draws, and the loop ends if usable draws keep coming; limits changed so that the minimum is above the maximum make it endless; a negative lambda_ is accepted and gives negative sizes.
- **C173 The limits of sizes that are accepted leave sizes to draw** - Weibull fractions over R (exp, power); acceptance condition as an equivalence; counterexample. *partial.* Equal limits are accepted although the share of sizes within them is 0.
- **C174 Quantiles of wind speeds are the inverse of the fractions below them** - R, exp/ln/sqrt; inverse functions, derivative; counterexample. *partial.* True of all fractions from 0 up to 1; fractions outside are not refused.
- **C175 Dissolution takes only aromatics, no more than there is, and books it** - components and elements as lists over R; floats with infinities and NaN where the code divides by 0; induction over the elements; NumPy version as an argument. *partial.* True with NumPy 1; with NumPy 2, which the requirements ask for, np.alltrue is missing and every step with surface oil raises AttributeError.
- **C176 The times of dissolution fit into the step** - same model; cases on the float divisions; equivalence for the assertion. *partial.* The step fails in an assertion just if an element has no waves and its droplets have no size or the density of the water, as before the first waves.
- **C177 What dissolves from an element does not depend on other elements** - same model; the product of the winds as the only way one element enters for another; counterexample. *partial.* False: the winds of all elements are multiplied together (np.prod). True of elements without slick area.
- **C178 Weights and thicknesses of a polygon release are what was given** - features with optional weights and thicknesses; every setter as a function to a result; invariant by induction over assignments; counterexamples. *partial.* None raises KeyError when the first polygon has no value to remove (C178_delete_refuted), and a wrong number of thicknesses is accepted and fails with TypeError when the distribution is computed (C178_thick_refuted).
- **C179 Elements are shared out to the polygons as told** - triangulation and areas as a record of arguments; weights characterised per polygon; range of the coordinates as an equivalence; counterexamples. *partial.* The share by area is that of square degrees, not of the areas in square metres that the release reports (C179_area_refuted). Weights with a sum within 0.001% of 1 and negative weights are accepted by prepare and raise ValueError when elements are released (C179_accepted_refuted). Polygons without triangles are left out of the statement on sums.
- **C180 A polygon release puts its elements into its polygons** - random draws as arguments; membership in the triangle as a convex combination; number over a run of steps. *proved.* The triangles of a polygon are taken to lie in it. The condition that NumPy accepts the probabilities is that of C179_accepted_refuted.
- **C181 Random points of a triangle lie in it and favour no part** - exact rationals; barycentric coordinates; the two draws of a point characterised. *proved.* 
- **C182 A grid release with one number has about its square of elements** - integer root and nearest rounding; nearest characterised by inequalities; counterexamples for narrow and wide boxes. *partial.* A box so narrow that less than half a column is due, or without height, raises ZeroDivisionError; one so wide that no row is due has 0 elements and can not be prepared.
- **C183 A grid release has one element at each point of its grid** - linspace over rationals; the list of positions is the grid of the specification. *partial.* Two negative numbers are accepted and prepared, and raise ValueError when the elements are released.
- **C184 A NESDIS file gives each polygon its thickness and time** - records with optional fields; carry of the time by induction over the file; counterexamples. *partial.* All polygons are released at the time of the first record; a record with a null type raises AttributeError and an empty file IndexError.
- **C185 Changing the time zone of a release shifts it** - offsets as optional integers; cases on both; counterexamples. *partial.* True for releases with an end. An instantaneous release without one gets the difference of the zones as its duration, or ValueError if the difference is negative.
- **C186 Saved arrays are the arrays to eight digits** - rounding over exact rationals with a searched decimal exponent; shown nearest among all numbers of n digits; float as an argument with a relative error. *proved.* float(text) is an argument; the error bound takes its relative error to be at most 2^-53 (no overflow or underflow). Arrays of one dimension.
- **C187 Saving what was loaded changes nothing** - spacing lemma for numbers of n digits; monotone by nearestness; counterexample. *partial.* Different numbers can become one (C187_distinct_refuted), for example two reference temperatures.
- **C188 The copy of an oil is that oil** - record of the ten arrays; json round trip; sum of errors by induction; counterexample for every float. *partial.* The copy is made from the json, so its fractions are rounded to eight digits; components of uncertain elements sum up to the mass only to 5.1e-8 (C188_mass_refuted).
- **C189 A time series is accepted exactly if its times ascend** - duplicates by length, sorted list compared with the list; equivalence with strict ascent; counterexample. *partial.* The condition is on the whole seconds of the times: a strictly ascending series with two times in a second is refused (C189_subsecond_refuted).
- **C190 A saved time is the same time** - wall clock and offset; cases; counterexample. *partial.* The time zone is dropped without a conversion: the wall clock is kept, not the instant. The texts of dates are not modelled.
- **C191 A saved duration is the same duration** - relative error of float against half a microsecond; counterexample from the spacing of doubles. *partial.* Exact below 2^52 microseconds (142 years); false above (C191_long_refuted).
- **C192 Saved file names are the file names** - cases on none, one, several; counterexamples. *partial.* A list of one name comes back as the name; names of different folders can collide without raw paths.
- **C193 The amount of a spill is the amount it was given** - heap of spills, releases and substances; setters as operations; frame lemma per operation, induction over scripts; counterexample with a shared release. *partial.* Kept as long as no other spill has the same release: two spills of one release share its mass (C193_shared_refuted). Exact arithmetic; nucos is a table of unit sizes.
- **C194 Changing the units of a spill keeps its mass** - table of unit sizes; amount computed from the mass; units set after the check. *proved.* Exact arithmetic.
- **C195 Changing the substance of a spill keeps the amount** - amount in mass kept by cases on the unit; counterexample with two densities. *partial.* The mass is kept; a volume is not: it changes by the ratio of the densities.
- **C196 A spill made from a release is of that release** - constructor as a function of optional arguments; counterexample for the mass. *partial.* The mass of the release is overwritten by the amount of the spill, 0 by default (C196_mass_refuted).
- **C197 The uncertainty of the amount scales the amount** - factor of a shift; n shifts as a power; counterexample for up and down. *partial.* A shift down does not undo a shift up.
- **C198 A release has either a number of elements or a rate** - exactly one of two optional fields as an invariant over scripts; counterexample for None. *partial.* Setting the rate to None raises TypeError after dropping it, which leaves neither; a negative rate is accepted.
- **C199 A spill has the windage it was made with** - helper functions over the heap; frame lemma; counterexample with a shared substance. *partial.* A helper sets the windage on the substance object: spills that share the substance all get the last windage (C199_shared_refuted).
- **C200 What an object of a model refers to is in its environment** - objects as numbers, references as a function; depth-first addition bounded by the number of objects; closure as an invariant over scripts; counterexamples. *partial.* Not for objects given to the constructor, whose references are not added (C200_constructor_refuted), nor after an environment object is removed or replaced or a reference is changed (C200_later_refuted).
- **C201 Merging a model adds what is new of it** - merge as five folds of additions; lists characterised by a filter, environment by reachability; counterexample for the number of steps. *partial.* A model without a time step takes the number of time steps of the other model and keeps its own duration (C201_time_refuted).
- **C202 An object of a model is found until it is taken** - ordered lists without duplicates; membership preserved over scripts. *proved.* Replacing by id. The release and the substance of a spill are not found: they are no members of a collection.
- **C203 Weathering is added by name** - table of names; induction over the list of names; counterexample for a single name. *partial.* A single name is refused: its letters are taken as names. After an unknown name the names before it stay added.
- **C204 Loading an old save folder brings it to the newest version** - update as a program over a folder that lists its changes; the last step writes the version; cases on the version. *partial.* A folder of a newer version than known is accepted as it is (C204_newer_refuted).
- **C205 An update renames classes and changes nothing else** - effects of a step computed for all folders; the resulting folder characterised by a map and a filter over the files; class names by computation. *partial.* Not if two WeatheringData are named one after the other: the second stays named (C205_two_refuted). Versions 0 and 1 are C207 and C208.
- **C206 An interrupted update can be done again** - interruption as a prefix of the changes; every file somewhere on its way as an invariant; renaming settles; counterexample for a torn write. *partial.* Between two changes, versions 2 to 4, class names as in C206_names. In the middle of a change no update succeeds any more (C206_torn_refuted); versions 0 and 1 are refuted in C207_redo_refuted and C208_redo_refuted.
- **C207 The windages of an old save file go to its substances** - loop over the files with its invariant; removal of distinct files; counterexamples for a shared initializer, an interruption and ids. *partial.* Not if two substances share an initializer (the update fails after version 2 is written, C207_shared_refuted). Interrupted it leaves initializers (C207_redo_refuted). Replaced oils all have the same id (C207_id_refuted).
- **C208 The element type of an old spill becomes its substance** - effects of the step computed; last write of a file; counterexamples for two element types, an interruption and the class of the oil. *partial.* All spills get the substance of the first element type (C208_two_refuted); an interrupted update cannot be done again (C208_redo_refuted); the oil made is not checked (C208_oil_refuted).
- **C209 One copy of a model for each pair of uncertainties** - constructor as a script of commands; state of the children after the first j pairs by induction; counterexample for a repeated value. *partial.* Not for a value given twice: the first copy gets no uncertainty and the second gets it twice (C209_twice_refuted).
- **C210 A broadcast command is run once by every copy it is for** - children as logs of commands with arbitrary answers; effect of a command on every child; induction over scripts. *proved.* All answers in time and no exceptions; the rest is C211.
- **C211 A broadcaster that fails** - arbitrary answers and delays; invariant over all scripts with any outcome; counterexamples for exceptions, lost answers and timeouts. *partial.* Every exception of a copy is a TypeError for the caller (C211_exception_refuted); a late answer to a command to one copy makes every later command to it or to all raise (C211_lost_refuted); a timeout one after the other is not restored (C211_timeout_refuted). That a stopped broadcaster is one forever follows from C211_stopped.
- **C212 Environment objects that a file can give** - classes, their order and what can be made arbitrary; induction over the list of classes. *partial.* For a given list of classes. By default no class is tried and the analysis of a file always raises (C212_default_refuted); a grid given by the caller is used by no object (C212_grid_refuted); once only if the references are found (else C213_wrong_refuted).
- **C213 Environment objects of a file refer to each other** - objects named by position; the last object of a class by induction over the list; invariant that references go back. *partial.* If the classes required have objects. If one has none, another object of the class itself fills the reference and is in the list too (C213_wrong_refuted).
- **C214 Every element is in one contour only, for every value a spill may show** - values for a cutoff as a specification by position; walk over the cutoffs by induction; search for the first cutoff not below the value. *partial.* A value that is a cutoff is in two contours (C214_twice_refuted); with one cutoff larger values are in none (C214_single_refuted); contours by depth or windage always raise (C214_columns_refuted).
- **C215 Hulls of the spills share out the elements** - geometry arbitrary; different numbers by induction, splitting a list by a key is a permutation. *proved.* concave_hull, buffer and union_all are arbitrary functions.
- **C216 Cutoffs from the appearance of spills** - induction over the spills with the position; style exactly when complete. *proved.* 
- **C217 JSON output of a step** - induction over the containers; contours by spill are a permutation. *partial.* With a directory every step raises (C217_dir_refuted); the bounds are around the certain elements as well (C217_bounds_refuted). Rounding is not modelled.
- **C218 A BNA file is read as it was written** - file as an inductive relation between entries and lines; induction over it; int() of a decimal text, split and strip of a header. *partial.* A polygon of three points, the last repeating the first, is read as a polygon of two points (C218_thin_refuted).
- **C219 A BNA file that is not well written is refused** - induction over the fuel for the exceptions; over the well written part of the file for each kind of bad end. *partial.* A line with one number is read as a point with this number twice (C219_one_refuted); without the comma the first digit of the number of points is dropped (C219_comma_refuted).
- **C220 Zipped shapefiles hold every element of every written step** - frames that are added by a step as a relation that composes; induction over the containers and the steps; names of temporary files different by their tags. *partial.* For a name with a dot before its suffix the four shapefiles have the same temporary name and the last one written takes the place of the others (C220_dots_refuted).
- **C221 Shapefiles that are not zipped are complete** - folder as a dictionary; files of a builder by induction over the parts; copies do not touch one another. *partial.* For the first run of an outputter without uncertainty and names without a dot. With uncertainty the bundle has only the .shp parts (C221_bundle_refuted); by default the name told ends in .zip and is not written (C221_told_refuted).
- **C222 A tide file is read as what it is** - lines by cases; a start as a prefix, fields as a count of commas. *partial.* A file of fewer than two lines raises an IndexError (C222_short_refuted); a scale factor of zero is taken for none (C222_zero_refuted).
- **C223 A data file from the server is whole** - a fetch as the list of the disks it passes through; induction over the writes. *partial.* After a stop the part that was written is taken for the file (C223_crash_refuted).
- **C224 A running average is of the wind as it is** - a history of calls; induction on it from its end: what is in use is made at an earlier call. *partial.* A change of the hours or of the wind during a run is not seen while the old average covers the time (C224_hours_refuted, C224_wind_refuted).
- **C225 Output kept in memory is that of the run** - induction over steps and containers; an entry is described by what is found in it. *partial.* Runs with uncertainty are refused; what came before in the step is kept (C225_refused_refuted), even an entry without all its arrays (C225_lacks_refuted).
- **C226 An appearance tells what the client set** - induction on the updates from the last: what is found is what was given last. *partial.* An update that does not give the name, the type and the id is refused with a KeyError (C226_alone_refuted).

## Findings

Behaviour of the code at the pinned commit that contradicts its documentation or what a user expects; each is a theorem (`_refuted` or named in the claim) unless marked (read), which means seen in the source and not formalised.

- **Ordered collection** (C02, C04): removing while iterating yields None; assignment by position uses the raw slot number, so after a removal it replaces another element; `Model.add_env(quash)` and `SpillContainerPair.__setitem__` mix the two numberings.
- **Time stepping** (C08, C10, C66): a negative or missing time step with `run_backwards=True` leaves a stale number of steps; changes of outputters do not rewind; `full_run` takes a StopIteration raised by a component for the end of the run; `full_run` and iteration call `post_model_run` twice (read).
- **Releases** (C69, C70, C71): `PointLineRelease.rewind` keeps `_previously_released`; `num_per_timestep` is dropped; backward runs release everything at once or nothing; (read) `GridRelease` uses an undefined `pos`, the polygons setter an undefined `poly`.
- **Spill container** (C16, C17, C19, C20): a release that fails duplicates ids, as does splitting; a stale copy of a view reverts writes; re-getting an alias truncates arrays; negative fractions accepted by split.
- **Spill container pair** (C21): a refused addition leaves the forecast spill only; adding twice duplicates the uncertain copy; a failing switch-on leaves no uncertain container.
- **Output schedule** (C40, C41, C73): no interval and `output_zero_step=False` writes only the last step; an interval under a second divides by zero; backward runs use a wrong residue and invert `output_start_time`; writing after the run differs in the last step and for steps of a day or more.
- **Maps** (C33, C37, C38, C63): the layered land check misses land; ParamMap books lost mass three times; `in_water` is wrong off the raster; longitudes on both sides of the shift stay unshifted.
- **Projections** (C52, C59): the -180..180 conversion fails outside (-540, 540]; float input arrays are changed in place.
- **Polygons** (C48, C49): a set made from data cannot be appended to; equality ignores the index array; zero-area polygons are clockwise both ways; thinning raises on empty polygons.
- **Bounding boxes** (C50): the null box overlaps the infinite box; `fromBBArray` with a null box loses the others.
- **Cleanup** (C22, C23, C24, C78, C79): a window within one step operates from the beginning of the step; sub-steps repeat the full operating time; the skimmer marks again at each step; a request of 0 marks one element; efficiency None and a second dispersion raise TypeError; an invalid efficiency becomes NaN.
- **Manual beaching** (C54): IndexError when the start lies inside a step; no start means counting from 1970.
- **Weathering** (C25): HalfLifeWeatherer books nothing; oil heavier than water gains mass by sedimentation. (read) a bad dispersion algorithm name raises AttributeError; `prev_yield_factor` of biodegradation is always 0.
- **Spreading** (C84, C88): the thickness limit exceeds 1e-4 just below a viscosity of 1e-4; Langmuir cells use the largest wind over all spills; `init_area` is called with the oil's viscosity as the water's (read).
- **Order of weatherers** (C29): an unlisted class raises TypeError at setup unless it is alone.
- **Broadcaster** (C58): duplicate levels leave tasks unconfigured; an exception in one child stops all with a TypeError.
- **Movers** (C89-C93): RK2/RK4 from inside a second integrate from the start of the second; the default velocity of SimpleMover is refused; IceAwareWind loses negative components; ShipDriftMover fails with mixed statuses.
- **Uncertainty** (C53, C94): records shift to other elements if elements are removed while the mover is inactive; removal before the delay ends raises IndexError; winds under 1 m/s are replaced by a move that is not scaled by the step.
- **Cache** (C39): stale uncertain file; saves while disabled are lost; a name clash loses an array; rewind deletes the user's `cache_dir`.
- **Persistence** (C42-C44, C95): members with the same last part overwrite silently; an archive named without directory is extracted into the working directory and not loaded; cleaning member names rewrites unrelated text; a file named `.json` escapes the size limit; automatic reference names collide with explicit ones; data files with the same last part lose one; a data file named like an object's json replaces it; names with braces cannot be saved; a root whose name begins with a dot is not found.
- **Time series** (C97, C98): an unordered list of pairs is accepted and yields values that are not in the data; the running average counts the hours before the record as calm when the model time lies in the record and extrapolation is off; (read) `RunningAverage.get_timeseries(datetime)` assigns a tuple; the search interpolates segments flatter than 1e-5 as steps.
- **Wind** (C99-C103): components given as 'uv' (string) are converted in u only; `set_wind_data`, `units` and refused assignments leave `timeseries` different from the wind in use; arrays not in m/s are converted in place, a second wind from the same array is another wind; changing the time zone after `set_wind_data` converts speeds again, and re-enters components as speed and direction (read); 'up' with a scale under 0.044 lowers the wind, 0.5 makes it infinite.
- **Rnd** (C104-C110): a time step shorter than the windage persistence widens the interval of windages, for 1-4 % and 900 s below zero from steps under 324 s; persistences over 900 s are silently infinite; swapped windage ranges are accepted and fail at release; `RandomMover3D` and `RiseVelocityMover` cannot run backwards (unsigned time step: OverflowError); elements can remain at the surface although it is not allowed (no vertical diffusion, or mixed layer of depth 0); elements leave the mixed layer without diffusion below it when the step reaches further than the layer is deep; droplets denser than water and larger than 0.2 mm get velocity NaN; `get_initializer_by_name` of substances raises AttributeError, `GetDropletSize` never terminates (both read only).
- **Tf** (C111-C112): the tide flat is evaluated at the time at which the step begins, so elements that reach it while it falls dry are not stranded and cross it in the next step.
- **Qry** (C113): `get_spill_data` cuts off fractions before it compares, reads `a && b || c` as `a && (b || c)`, finds nothing for other operators, fails on positions, unspaced conditions and properties given as one text (as its own example does), and evaluates the text of the constant with eval.
- **Rvw** (C114, C115): `Burn.weather_elements` and `Skim.weather_elements` of roc.py never call `update_from_fatedataview`: once an element is on land, submerged or marked, mass is booked as boomed or skimmed and none is removed.  After all oil is taken the next weatherer cuts only its own arrays to length 0.  `recalc_density` changes the view 'surface_weather' but writes back the view 'all': once any element does not float, densities are never updated again.
- **Roc** (C117, C118, C121 to C123): after a shortage a mass in kilograms is added to the boom's room in cubic feet, which makes the next burn take negative time; a second cycle in one step replaces the collected volume of the first; `_time_burning` adds the time that remains instead of the time that passed; the time to fill a tank is 60 times too long, so a full tank books 42 times its room; the oil skimmed in gallons is used as kilograms; an interval shorter than half a time step never takes place; `next_interval_index` of an empty schedule is an IndexError; rewinding keeps the rest of a burn and the flags of a skimmer that travels or unloads.
- **Oil** (C125 to C128): the density of an oil jumps at every measurement but the lowest, because the expansion coefficient is relative to the lower density while the formula divides; `GnomeOil.initialize_elements` calls the method of `Substance` without the environment, so new elements get the density in the oil's own water (which a run sets to the first water of the environment only if the oil has none, see C132), or in a `Water()` of 300 K when there is none, whatever water the caller passes; an element that lost all its mass gets the density NaN and turns `avg_density` of the spill into NaN; when no mass is left the averages keep their last values; `initialize_elements(0, ...)` rewrites all elements because of `slice(-0, None)`.
- **Vis** (C129 to C131): two viscosity measurements at one temperature give an oil that thickens when warmed (the least squares solution of smallest norm); without fresh measurements the viscosity is 1 m2/s; `_k_v2` and `_visc_A` survive a change of the measurements, and cached vapour pressures a change of the boiling points; a water content above 99.7 per cent makes the viscosity NaN.
- **Set** (C132 to C136): default references are never renewed, so exchanging the water or wind of the environment between runs leaves oils and weatherers with the old one; `setup_model_run` switches on spreading and Langmuir weatherers the user switched off, and of several spreading weatherers the last, which the sorting may change from one run to the next; `add_env(..., quash=True)` returns inside its loop after the first item; `Waves.validate` always says valid; `validate` demands wind, water or waves in the environment even of objects that have their own; `check_inputs` tests the signs of time step and duration only for negative time steps (and tests the same condition twice).
- **Upd** (C137 to C141): `update_from_dict` empties and refills lists and collections in place and then compares them with themselves, so it returns False when only a collection (or an object inside) changed; when an item of a collection is refused, the collection is left with the items before it and objects inside are already changed; `ObjType.deserialize` calls `update_from_dict` without the table of references, so inside a new object a known object that names another known object gets a copy of it.
- **Eq** (C142 to C145): `==` of two objects of one class raises TypeError when a float stands against None (a Wind with latitude 20.0 against one without), and ValueError when arrays have as many entries but another shape; an object with a NaN is not equal to itself; equality is neither symmetric nor transitive (99999.0 == 100000.0 but not the other way round); `_diff` without fail_early raises AttributeError for objects of different classes instead of listing the difference. The docstring of `__eq__` gives ATOL as 1e-08, the class has 1e-38.
- **Nc** (C146 to C149): in a run with uncertainty the two NetCDF files share one start index (`_start_idx`, netcdf.py line 764); once the two sets have different numbers of elements (elements that leave the map are removed from each set separately) steps overwrite one another or leave gaps in the forecast file. `read_data(time=...)` of a backward run gives the first step for every time; an index below -n gives a mixture of the last and the first step instead of IndexError; `which_data='most'` in read_data is taken as a list of letters and returns nothing; the list of arrays to output is cut down in the first run and never grows back, and stays enlarged after 'all'; a mass balance that appears only after the run was prepared raises KeyError.
- **Wav** (C150 to C154): `Adios2.mean_wave_period` has a factor of the wind too many (`U * 0.71 * U**1.23`), so periods are too long by the wind speed (more than 1200 s at 32 m/s; its comment says 15.7 s); the wave height falls by up to 2 per cent when the wind passes the value at which the fetch starts to matter; `Water.units = ...` with one invalid unit raises after the units before it have been changed; `Water.get('density')` is wrong once `units['density']` is another unit than kg/m^3. `natural_dispersion` and `Waves` read `water.kinematic_viscosity` and `water.salinity` without units.
- **Gc** (C155 to C157): gridcur files: row or column 0 is taken for the last one instead of an error; an empty line before the header raises GridCurReadError; `write_gridcur` drops seconds, writes nan for the distance in a grid of one row, makes unequal distances equal, and units of several words are cut when read; `from_gridcur(..., extrapolation_is_allowed=True)` ignores its argument.
- **Fil** (C158 to C164): a zipped BinaryOutput whose last step is not to be written ends in FileNotFoundError and all output of the run is lost (the archive is overwritten by an empty one); without a directory in its file name a second run raises ValueError, with one it deletes all files of the kind in the directory; dates in the years 1 to 3 raise ValueError. `OilBudgetOutput(on=False)` writes all the same. `TrajectoryGeoJsonOutput` overwrites each forecast file with the uncertain features (none in a certain run) and ignores `round_data=False`; it and `WeatheringOutput` write every step when off. Binary, KMZ and NetCDF outputters that are off and given to the constructor of Model raise ValueError (their cache is None: the callbacks are registered after the outputters are added); with `output_zero_step=False` and never prepared they raise AttributeError. KMZ layers leave gaps or overlap if the interval is not a multiple of the time step, end before they begin in backward runs, and there is no file if the caller stops early.
- **Plm** (C165 to C168): the loop over a `PlumeGenerator` leaves out the rest of the duration after the last whole time step, with its elements; a duration shorter than the time step gives nothing. `VerticalPlumeRelease.set_newparticle_positions` raises ValueError in a step without new elements (`[-0:]` is the whole array), and before that AttributeError in every step, for it adds to `num_released`, which no class sets; a `Spill` calls neither this method nor `num_elements_to_release`, so in a run the base class raises ValueError when the release time is reached (also for `InitElemsFromFile`); without end and number of elements it raises OverflowError.
- **Srf** (C169 to C171): the hour bins of `surface_conc_kde` leave out oil older than the bin (the comment says 6 hours), so two elements of one spill at one place get different values; an unknown algorithm is refused only if there are elements. In `calculate_contours` a single cutoff leaves out all elements above it, the largest cutoff is never used, values on a cutoff are in two contours, and the structure that the docstring documents (without `cutoff_id` and `color`) raises KeyError.
- **Dst** (C172 to C174): `WeibullDistribution` accepts equal limits, although its message asks for a maximum above the minimum, and then never ends unless exactly that size is drawn; limits changed afterwards and the signs of alpha and lambda_ are not checked (negative sizes, endless loop). `compute_fraction` has `lambda_ - float(lambda_)` where a conversion was meant. Rayleigh quantiles do not refuse fractions outside 0 to 1.
- **Dis** (C175 to C177): `Dissolution` calls `np.alltrue`, which NumPy 2 does not have, while the requirements ask for NumPy 2: every step with surface oil raises AttributeError. Without waves and with droplets of size 0, as at the start, a step fails in an assertion. The rate at the slick multiplies the winds of all elements (`np.prod`), so what an element loses depends on how many others there are.
- **Prl** (C178 to C185): `PolygonRelease.thicknesses = None` (and `weights`) raises KeyError where nothing was set; a wrong number of thicknesses is accepted by the setter. Without weights and thicknesses the shares go by square degrees, not by area. Weights off by less than 1e-5 pass `prepare_for_model_run` and are refused by NumPy in the run. `GridRelease` with one number: a narrow box divides by zero and a wide one has no elements; a negative pair is accepted. A `NESDISRelease` releases all polygons at the time of the first record; a null OILTYPE is an AttributeError, an empty file an IndexError. Changing the time zone of an instantaneous release without an end gives it the difference of the zones as a duration, or fails. The `polygons` setter uses an undefined name; `GridRelease.initialize_elements` uses an undefined name with `retain_initial_positions`.
- **Fld** (C186 to C192): `GnomeOil.__deepcopy__` goes through the json, so the oil of the uncertain spills has arrays rounded to eight digits: mass fractions that sum to one need not in the copy, so that the components of an uncertain element do not make up its mass, and two reference temperatures can become equal. `LocalDateTime` drops the time zone without converting: 12:00+02:00 is read as 12:00. Two times within a second make a time series invalid. With `raw_paths` false two files of one name in two folders become one name.
- **Spl** (C193 to C199): two spills made from one release share its mass, so that setting the amount of one changes that of the other. Giving a spill in units of volume another substance changes its amount. `Spill(release=r)` overwrites the mass of the release by the amount of the spill, 0 by default, and ignores `num_elements`; `Spill(num_elements=None)` releases one element per step. Shifting the amount up and then down does not give it back. `num_per_timestep = None` raises TypeError after dropping the rate, which leaves the release with neither number nor rate; a negative rate is accepted. The helper functions set the windage on the substance object given, so that spills which share a substance all have the windage of the last.
- **Mrg** (C200 to C203): `Model(movers=[m])` does not put the wind of the mover into the environment, `model.movers += m` does. `merge` copies `_num_time_steps` from the other model if the model has no time step, which then disagrees with its own duration. `add_weathering('evaporation')` is refused: the letters of the text are taken as names; after an unknown name the names before it stay added. `find_by_class(..., ret_all=True)` returns None, not an empty list, if there is none.
- **Mig** (C204 to C208): loading a save folder updates it in place. A folder of a newer version than known is accepted. A write that is interrupted leaves a file, or version.txt, which no update can read any more; from version 0 an interruption after the element type is removed cannot be repaired; from version 1 an interruption leaves initializers. With two element types all spills get the substance of the first; two substances that share an InitWindages make the update fail (unlink twice) after version 2 is written, and loading again succeeds. Of two WeatheringData named one after the other the second stays named although its file is gone (a list changed while going through it). Oils that are replaced all have the same id, and the oil made by v0tov1 has another class name than the one v1tov2 checks.
- **Brd** (C209 to C211): a value given twice in the uncertainties of a broadcaster leaves one copy without uncertainty and gives it to the other twice. `handle_child_exception` calls `with_traceback()` without an argument, so that every exception of a copy reaches the caller as a TypeError. A command to one copy that times out leaves the REQ socket waiting: every later command to that copy or to all raises. One after the other with a timeout, a late answer leaves the new timeout. A stopped broadcaster answers None to everything.
- **Nce** (C212, C213): `Environment.__metaclass__` has no effect in Python 3, so that `Environment._subclasses` stays empty: `env_from_netCDF` without a list of classes and `ice_env_from_netCDF` return nothing for every file, and `get_file_analysis` always raises (unbound `report`). A `grid` given to `env_from_netCDF` is popped and never passed on. A required reference whose class has no object yet is filled by a second object of the class itself, which is in the result too (`attempt_from_netCDF` uses `c`, and `klass` is not used).
- **Hul** (C214 to C217): an element whose value is equal to an inner cutoff is in two contours, and with a single cutoff larger values are in none (the last cutoff is used only if it is the only one). `default_unit_map` offers Depth and Windage, for which the frame of `calculate_contours` has no column: every step raises a KeyError, as for viscosity or surface concentration when the elements have none. `SpillJsonOutput` has no method `output_to_file`: with an `output_dir` every written step raises an AttributeError. The uncertain bounds are around the elements of both containers.
- **Bna** (C218, C219): a polygon of three points whose last repeats the first is read as a polygon of two points. A coordinate line with one number fills both coordinates with it, since the list is assigned to a row of a numpy array. The character before the number of points is dropped without a test that it is a comma, so that a header ending in `"b"12` announces two points. `ReadBNA` does not pass `dtype` on for a PolygonSet, and does not close the file when it raises.
- **Shp** (C220, C221): the names of the temporary shapefiles are made with `with_suffix` from a stem that may have a dot: for `run.1.shp` all four are `run.zip`, so that the uncertain elements take the place of the certain ones in the output. With `zip_output=False` and uncertainty the bundle has only the `.shp` parts of the shapefiles, which cannot be read without the others. With `zip_output=False` and the default `include_uncertain_boundary=True` the steps tell of a `.zip` file that is never written. An outputter that is switched on during a run raises an AttributeError at its end, as `uncertain` was never set.
- **Tid** (C222, C223): a tide file of one line, or an empty one, raises an IndexError, not the ValueError written for it: the split at carriage returns gives one line, as text files are opened with universal newlines. `Tide(scale_factor=0)` has the scale factor of the file. `get_datafile` writes to the final name: after a stop, or a network error during the transfer, the part that was written is returned as the file by every later call.
- **Avg** (C224, C225): a `RunningAverage` whose hours, or whose wind, are changed during a run goes on with the old average for as long as it covers the model time (up to 48 hours). `MemoryOutputter` refuses uncertainty after it has stored the certain container of the same step; a container without one of the arrays leaves an entry that has only some of them.
- **App** (C226): `Appearance.update_from_dict` pops the name, the type and the id without a default: an update with some settings only raises a KeyError and sets none of them (but a name that was given is set).

## Print Assumptions for each theorem

Closed under the global context (no axioms):

C01_iteration_is_insertion_order C02_len_contains_iter_agree C02_values_partial C02_values_refuted C03_lookup_agrees_with_iteration C04_setitem_refuted C04_setitem_keyerror_refuted C04_setitem_negative_refuted C04_setitem_partial C05_callbacks_fire_exactly_once C06_steps_in_order C06_full_run C07_count_kept C07_steps_cover_duration C07_constructed C07_wrong_sign_refuted C08_mirrored_partial C08_constructed_partial C08_mirror_refuted C09_substeps_tile C09_step_order C09_substep_count C09_limits_refuted C10_change_rewinds_partial C10_next_step_is_zero_partial C10_change_rewinds_refuted C11_active_iff_midpoint C11_midpoint C11_adjacent_windows_split C11_window_must_be_proper C111_run_partial C111_stays C111_land_first C111_simple C111_falls_dry_refuted C112_transparent C112_base C112_mass C113_partial C113_whole_part C113_fraction_refuted C113_precedence_refuted C113_other_texts_refuted C114_take_partial C114_take_refuted C114_arrays_refuted C115_density_partial C115_density_refuted C116_disperse C117_plan_partial C117_plan_refuted C118_volumes_partial C118_volumes_refuted C119_accounts C12_total_order C12_operators_agree C120_rates C121_step_partial C121_fill_refuted C122_index C122_next C122_time_to_next C122_active C122_active_refuted C123_rerun_partial C123_rerun_refuted C124_measured C124_data_only C124_warm C124_cold C125_segment_partial C125_continuous_refuted C126_new_partial C126_water_refuted C126_inert C126_none_refuted C127_recalc_partial C127_heavier C127_empty_refuted C128_average C128_parts C128_released C128_stale_refuted C13_release_count C13_can_be_prepared C13_constructed C132_attached C132_again C132_off C132_stale_refuted C133_switched_partial C133_idle C133_again C133_user_refuted C133_two_refuted C134_find C134_water C134_add C134_quash_partial C134_quash_refuted C135_validate C135_begin_partial C135_waves_refuted C135_own_refuted C136_refuses C136_messages C136_times C136_signs_refuted C137_send_back C138_frame C139_written C139_new C139_nested_refuted C14_total_released C14_partition_free C140_flag_partial C140_flag_refuted C141_failed_partial C141_atomic_refuted C142_equal C142_no_error_partial C142_no_error_refuted C143_copy_partial C143_nan_refuted C144_symmetric_partial C144_transitive_partial C144_exact_partial C144_symmetric_refuted C144_transitive_refuted C145_empty C145_lists C145_list_given_partial C145_other_class_refuted C146_read_back C146_again C146_uncertain_partial C146_uncertain_refuted C146_late_balance_refuted C147_nearest_partial C147_exact_partial C147_backward_refuted C147_backward_first C148_negative C148_too_large C148_only C148_too_small_refuted C149_first_partial C149_usable C149_second_run_refuted C149_switch_refuted C149_read_most_refuted C15_mass_shared C150_units_refuted C155_nodes_partial C155_cells C155_one_row_refuted C155_unequal_refuted C155_seconds_refuted C155_units_refuted C156_nodes C156_cells C156_outside C156_row_zero_refuted C156_blank_refuted C157_contents C157_nodes C157_cells C157_extrapolation_refuted C158_archive_partial C158_broken C158_lost_refuted C159_loose_partial C159_second_refuted C159_others_refuted C16_arrays_aligned C16_plain_runs_aligned C16_release_appends C16_release_count C16_new_array_refuted C16_bad_split_refuted C16_view_again_refuted C160_contents C160_time C161_rows C161_hours C161_distinct C161_short_refuted C161_on_refuted C162_files C162_returned C162_rounded C162_forecast_refuted C162_round_refuted C163_off_partial C163_on C163_deaf_refuted C163_cache_refuted C163_never_refuted C164_file C164_broken C164_stopped C164_layer C164_meet_partial C164_gap_refuted C164_backward_refuted C165_count_partial C165_rest_refuted C166_steps C166_all C166_place_partial C166_none_refuted C166_counter_refuted C166_run_refuted C166_endless_refuted C167_mass C167_default C168_splot C168_negative C169_concentration C169_kernel C169_algorithm C169_place_refuted C17_ids_increasing_partial C17_never_reused_partial C17_failing_release_refuted C17_split_refuted C170_contours C170_cover C170_single_refuted C170_keys_refuted C171_separate C171_together C172_within C172_ends C172_endless_refuted C178_new C178_refused C178_set C178_delete_partial C178_exclusive C178_delete_refuted C178_thick_refuted C179_shares_partial C179_coordinates C179_refused C179_area_refuted C179_accepted_refuted C18_removes_the_marked C180_inside C180_number C181_inside C181_even C182_resolution_partial C182_narrow_refuted C182_wide_refuted C183_grid C183_negative_refuted C184_file_partial C184_carry C184_given C184_times_refuted C184_null_refuted C185_shift_partial C185_unknown C185_instant_refuted C186_written C186_error C186_figures C186_refused C187_stable C187_order C187_distinct_refuted C188_copy C188_refused C188_mass_partial C188_mass_refuted C189_accepted C189_round_trip C189_subsecond_refuted C19_view_rows_partial C19_write_back_partial C19_read_back_partial C19_stale_view_refuted C16_view_again_refuted C190_round_trip C190_instant_partial C190_zone_refuted C191_exact C191_long_refuted C192_round_trip C192_base C192_list_refuted C192_collision_refuted C193_given C193_made C193_makes C193_kept_partial C193_shared_refuted C193_negative C194_kept C194_back C194_refused C195_mass_partial C195_volume_refuted C196_number C196_number_given C196_mass_partial C196_mass_refuted C197_shifted C197_times C197_back_refuted C197_off C198_one_partial C198_one_refuted C198_set C198_negative_refuted C199_asked C199_makes C199_kept_partial C199_shared_refuted C199_refused C199_substance C20_split_partial C20_split_errors C20_exact_mass_refuted C20_negative_mass_refuted C16_bad_split_refuted C16_view_again_refuted C200_brought_partial C200_adding C200_adding_env C200_others C200_constructor C200_constructor_refuted C200_later_refuted C201_lists C201_environment C201_twice C201_self C201_time_partial C201_time_refuted C202_once C202_found C202_contains C202_removed C202_replaced C202_class C202_property C203_standard C203_names C203_refused C203_text_refuted C204_version C204_same C204_again C204_newer_refuted C205_files_partial C205_kept C205_names C205_two_refuted C206_redo_partial C206_names C206_torn_refuted C207_windages_partial C207_order C207_shared_refuted C207_redo_refuted C207_id_refuted C208_substance_partial C208_files C208_two_refuted C208_redo_refuted C208_oil_refuted C209_pairs_partial C209_twice_refuted C21_lockstep_partial C21_copies_partial C21_rewind_restores C21_lockstep_refuted C21_twice_refuted C21_setitem_refuted C21_switch_refuted C210_all C210_same C210_one C210_refused C210_history C211_kept C211_stopped C211_late C211_exception_refuted C211_lost_refuted C211_turn_refuted C211_timeout_refuted C212_made_partial C212_once_partial C212_default_refuted C212_grid_refuted C213_linked_partial C213_kept C213_earlier C213_wrong_refuted C214_contours_partial C214_none C214_test C214_covered_partial C214_once_partial C214_twice_refuted C214_single_refuted C214_columns_refuted C215_hulls C215_drawn C215_empty C216_styles C216_refused C217_records_partial C217_dir_refuted C217_bounds_refuted C217_no_bounds C218_read_partial C218_one_meaning C218_type C218_thin_refuted C219_only_value C219_short_partial C219_zero_partial C219_header_partial C219_one_refuted C219_comma_refuted C22_skim_partial C22_disperse_partial C22_skim_short C22_disperse_short C22_off C22_refuted C22_substeps_refuted C220_zip_partial C220_offset C220_dots_refuted C221_plain_partial C221_bundle_refuted C221_told_refuted C221_switched C222_kind_partial C222_short_refuted C222_new_partial C222_new_refused C222_zero_refuted C223_get_partial C223_there C223_refused C223_address C223_folder C223_crash_partial C223_crash_refuted C224_run C224_set C224_step C224_steady_partial C224_hours_refuted C224_wind_refuted C224_new C225_run_partial C225_told C225_off C225_uncertain_partial C225_refused_refuted C225_lacks_refuted C226_told_partial C226_whole_partial C226_refused C226_alone_refuted C226_read_only C23_marking_partial C23_burn_once C23_disperse_once C23_burn_marks C23_disperse_marks C23_skim_marks C23_zero_refuted C23_skimmer_again_refuted C24_skim C24_burn C24_disperse C24_inactive C24_none_efficiency_refuted C24_two_dispersions_refuted C25_beaching C25_beaching_inactive C29_ordered C29_unique C29_unlisted C30_walk_terminates_and_is_straight C31_no_land_unnoticed C31_hit_is_first_land C32_never_reads_outside C32_layered_never_reads_outside C33_layered_agrees_refuted C33_layered_partial C33_layered_visited_partial C34_coarse_cell_iff_block_has_land C35_beaching C35_beached_does_not_drift C36_refloating C37_off_map_mass_booked_once_partial C37_off_map_mass_booked_once_refuted C38_land_queries_agree_partial C38_land_queries_agree_refuted C38_in_water_refuted C39_load_partial C39_save_partial C39_stale_refuted C39_disabled_refuted C39_names_refuted C39_directory_refuted C40_schedule_partial C40_anchor C40_interval C40_every_step_refuted C40_subsecond_refuted C41_backward_partial C41_backward_refuted C41_start_refuted C42_confined C42_complete C42_clash_refuted C42_load C42_load_bare C42_update_confined C42_update_complete C42_update_text_refuted C43_valid_iff C43_no_parent C43_hidden_json_refuted C44_reference_partial C44_stable_partial C44_named_partial C44_collision_refuted C44_falsy_refuted C45_rotation C45_reversal C45_closing C45_repetition C45_answers C46_chord C47_bounding_box C48_area C48_rotation C48_translation C48_reversal C48_flat C48_convex C49_set C49_every_history C49_append C49_from_data_refuted C49_equality_partial C49_equality_refuted C50_points C50_no_points C50_point_inside C50_inside C50_overlaps C50_equality C50_null_overlap_refuted C50_merge C50_merge_null C50_bbarray C50_bbarray_null_refuted C50_constructor C50_corners C51_pixel_round_trip C51_scale_shows_box C51_scale_fills_image C51_shown_box_is_invertible C51_rectangular_round_trip C51_meters_round_trip C52_convert_partial C52_convert_refuted C53_aligned_partial C53_kept_partial C53_renewed C53_drawn C53_inactive_refuted C53_delay_refuted C54_partial C54_whole C54_refuted C54_since_1970_refuted C55_round_nearest C55_round_array C55_seconds_round_trip C55_seconds_round_trip_refuted C56_schemes C56_current C56_wind C56_dry C56_simple C57_factor C57_monotone C57_move C58_table C58_history C58_answers C58_makes C58_failure C58_duplicate_refuted C59_keeps_input_partial C59_to_lonlat_keeps_input_refuted C59_rect_to_pixel_keeps_input_refuted C60_param_map_stops_on_shoreline C60_param_map_leaves_others C61_infdatetime_accepts C61_infdatetime_compares C62_offset_text C63_shift_partial C63_mixed_not_shifted C63_shift_refuted C64_release_windows_tile C64_odd_step_refuted C65_time_matches_step C65_zero_step_refuted C66_failing_step_never_skips C66_errors_are_reported C66_full_run_reports C66_full_run_reports_refuted C67_on_the_line C67_at_the_point C68_custom_positions C69_rewind_is_new_partial C69_same_release_partial C69_same_elements_partial C69_bulk_volume_partial C69_rewind_is_new_refuted C70_per_timestep_partial C70_per_timestep_refuted C71_backward_release_partial C71_backward_release_refuted C72_moves_add_up C72_order_of_movers C73_post_run_partial C73_last_step_refuted C73_day_refuted C73_backward_refuted C74_tests_agree C74_boundary_refuted C75_triangle C75_fan C75_insideb C76_picture C76_thin C76_answers C76_again C76_set C77_weights C77_areas C77_volumes C77_triangles C77_starts C77_positions C77_positions_answers C77_everywhere C78_partial C78_last C78_refuted C79_skim_partial C79_skim_exact C79_disperse_partial C79_burn_partial C79_burn_volume C79_skim_refuted C80_fate C80_deterministic C80_idempotent C89_rk4 C89_rk2 C89_fraction_refuted C90_current C90_delay C90_simple C90_default C91_current C92_wind_partial C92_negative_refuted C93_drift_partial C93_mixed_refuted C95_roundtrip_partial C95_saves_partial C95_data_stored C95_data_file_refuted C95_brace_refuted C95_hidden_refuted C95_json_lost_refuted C95_crowd_refuted C96_interpolates C96_single C96_data C96_outside C96_at C96_several C97_array C97_list_refuted C98_average_partial C98_bounds_partial C98_calm_refuted

Axioms of the standard library: `ClassicalDedekindReals.sig_forall_dec`, `FunctionalExtensionality.functional_extensionality_dep`:

C110_rise_partial C150_stored C150_restate C150_new C150_points C150_density_partial C150_density_refuted C152_fraction C152_wind C152_salt C152_no_jump C152_decay C176_times C84_bounds_partial C84_monotone_partial C84_refuted

Axioms of the standard library: `ClassicalDedekindReals.sig_forall_dec`, `ClassicalDedekindReals.sig_not_dec`, `FunctionalExtensionality.functional_extensionality_dep`:

C101_partial C104_released C104_in_range_partial C104_persistent C104_short_step_refuted C104_swapped C105_spread_partial C105_long_persistence_refuted C105_refused C106_backwards C106_uncertain C106_settings C106_first_step C107_submerged_partial C107_vertical C107_stays_at_surface_refuted C108_layer_partial C108_long_step_refuted C109_laws C109_monotone C109_continuous C109_dense_refuted C110_forwards C110_backwards_refuted C174_mean C175_masses_partial C175_numpy_refuted C176_fails C176_calm_refuted C177_own_partial C87_run C87_grows C87_begins C87_booked C94_turned C94_start_partial C94_light_refuted

Axioms of the standard library: `ClassicalDedekindReals.sig_forall_dec`, `ClassicalDedekindReals.sig_not_dec`, `Classical_Prop.classic`, `FunctionalExtensionality.functional_extensionality_dep`:

C100_assigned C100_set_wind_data_refuted C100_units_refuted C100_components_refuted C100_refused_refuted C101_refuted C102_shift_partial C102_unknown C102_refuted C103_scaled_partial C103_nothing C103_small_refuted C103_half_refuted C106_reach C107_horizontal C129_through C129_falls_partial C129_kept C129_same_temperature_refuted C129_no_data_refuted C129_stale_refuted C130_update_partial C130_water_refuted C130_container C131_boiling_partial C131_heavy_refuted C131_cache_partial C131_stale_refuted C151_bounds C151_wind C151_fetch C151_wind_fetch_partial C151_wind_fetch_refuted C153_wind_of_waves C153_given C153_same_waves C153_emulsification C154_wind_partial C154_given C154_calm C154_stress_refuted C154_value C172_sign_refuted C173_accepted C173_errors C173_share_partial C173_equal_refuted C174_inverse C174_density C174_range_refuted C177_company_refuted C25_evaporation C25_evaporation_fractions C25_dispersion C25_biodegradation C25_halflife_partial C25_halflife_refuted C25_sinking_refuted C26_add C26_steps C26_half C27_step C27_waits C27_run C28_coverage C28_weather C81_more_wind C82_cut C83_cut C83_area C85_first C86_monotone C86_bounds C88_fay C88_langmuir_partial C88_langmuir_refuted C94_spreads C94_pick C99_set_get_partial C99_set_wind_data_partial C99_same_numbers C99_refused C99_uv_refuted
