## Findings

Behaviour of the code at the pinned commit that contradicts its documentation or what a user expects; each is a theorem (`_refuted` or named in the claim) unless marked (read), which means seen in the source and not formalised.

- **Ordered collection** (C02, C04): removing while iterating yields None; assignment by position uses the raw slot number, so after a removal it replaces another element; `Model.add_env(quash)` and `SpillContainerPair.__setitem__` mix the two numberings.
- **Time stepping** (C08, C10, C66): a negative or missing time step with `run_backwards=True` leaves a stale number of steps; changes of outputters do not rewind; `full_run` takes a StopIteration raised by a component for the end of the run; `full_run` and iteration call `post_model_run` twice (read).
- **Releases** (C69, C70, C71): `PointLineRelease.rewind` keeps `_previously_released`; `num_per_timestep` is dropped; backward runs release everything at once or nothing; (read) `GridRelease` uses an undefined `pos`, the polygons setter an undefined `poly`.
- **Spill container** (C16, C17, C19, C20): a release that fails duplicates ids, as does splitting; a stale copy of a view reverts writes; re-getting an alias truncates arrays; negative fractions accepted by split.
- **Spill container pair** (C21): a refused addition leaves the forecast spill only; adding twice duplicates the uncertain copy; a failing switch-on leaves no uncertain container.
- **Output schedule** (C40, C41, C73): no interval and `output_zero_step=False` writes only the last step; an interval under a second divides by zero; backward runs use a wrong residue and invert `output_start_time`; writing after the run differs in the last step and for steps of a day or more.
- **Maps** (C33, C37, C38, C63): the layered land check misses land; ParamMap books lost mass three times; `in_water` is wrong off the raster; longitudes on both sides of the shift stay unshifted.
- **Projections** (C52, C59): the -180..180 conversion fails outside (-540, 540]; float input arrays are changed in place.
- **Polygons** (C48, C49): a set made from data cannot be appended to; equality ignores the index array; zero-area polygons are clockwise both ways; thinning raises on empty polygons.
- **Bounding boxes** (C50): the null box overlaps the infinite box; `fromBBArray` with a null box loses the others.
- **Cleanup** (C22, C23, C24, C78, C79): a window within one step operates from the beginning of the step; sub-steps repeat the full operating time; the skimmer marks again at each step; a request of 0 marks one element; efficiency None and a second dispersion raise TypeError; an invalid efficiency becomes NaN.
- **Manual beaching** (C54): IndexError when the start lies inside a step; no start means counting from 1970.
- **Weathering** (C25): HalfLifeWeatherer books nothing; oil heavier than water gains mass by sedimentation. (read) a bad dispersion algorithm name raises AttributeError; `prev_yield_factor` of biodegradation is always 0.
- **Spreading** (C84, C88): the thickness limit exceeds 1e-4 just below a viscosity of 1e-4; Langmuir cells use the largest wind over all spills; `init_area` is called with the oil's viscosity as the water's (read).
- **Order of weatherers** (C29): an unlisted class raises TypeError at setup unless it is alone.
- **Broadcaster** (C58): duplicate levels leave tasks unconfigured; an exception in one child stops all with a TypeError.
- **Movers** (C89-C93): RK2/RK4 from inside a second integrate from the start of the second; the default velocity of SimpleMover is refused; IceAwareWind loses negative components; ShipDriftMover fails with mixed statuses.
- **Uncertainty** (C53, C94): records shift to other elements if elements are removed while the mover is inactive; removal before the delay ends raises IndexError; winds under 1 m/s are replaced by a move that is not scaled by the step.
- **Cache** (C39): stale uncertain file; saves while disabled are lost; a name clash loses an array; rewind deletes the user's `cache_dir`.
- **Persistence** (C42-C44, C95): members with the same last part overwrite silently; an archive named without directory is extracted into the working directory and not loaded; cleaning member names rewrites unrelated text; a file named `.json` escapes the size limit; automatic reference names collide with explicit ones; data files with the same last part lose one; a data file named like an object's json replaces it; names with braces cannot be saved; a root whose name begins with a dot is not found.
- **Time series** (C97, C98): an unordered list of pairs is accepted and yields values that are not in the data; the running average counts the hours before the record as calm when the model time lies in the record and extrapolation is off; (read) `RunningAverage.get_timeseries(datetime)` assigns a tuple; the search interpolates segments flatter than 1e-5 as steps.
- **Wind** (C99-C103): components given as 'uv' (string) are converted in u only; `set_wind_data`, `units` and refused assignments leave `timeseries` different from the wind in use; arrays not in m/s are converted in place, a second wind from the same array is another wind; changing the time zone after `set_wind_data` converts speeds again, and re-enters components as speed and direction (read); 'up' with a scale under 0.044 lowers the wind, 0.5 makes it infinite.
- **Rnd** (C104-C110): a time step shorter than the windage persistence widens the interval of windages, for 1-4 % and 900 s below zero from steps under 324 s; persistences over 900 s are silently infinite; swapped windage ranges are accepted and fail at release; `RandomMover3D` and `RiseVelocityMover` cannot run backwards (unsigned time step: OverflowError); elements can remain at the surface although it is not allowed (no vertical diffusion, or mixed layer of depth 0); elements leave the mixed layer without diffusion below it when the step reaches further than the layer is deep; droplets denser than water and larger than 0.2 mm get velocity NaN; `get_initializer_by_name` of substances raises AttributeError, `GetDropletSize` never terminates (both read only).
- **Tf** (C111-C112): the tide flat is evaluated at the time at which the step begins, so elements that reach it while it falls dry are not stranded and cross it in the next step.
- **Qry** (C113): `get_spill_data` cuts off fractions before it compares, reads `a && b || c` as `a && (b || c)`, finds nothing for other operators, fails on positions, unspaced conditions and properties given as one text (as its own example does), and evaluates the text of the constant with eval.
- **Rvw** (C114, C115): `Burn.weather_elements` and `Skim.weather_elements` of roc.py never call `update_from_fatedataview`: once an element is on land, submerged or marked, mass is booked as boomed or skimmed and none is removed.  After all oil is taken the next weatherer cuts only its own arrays to length 0.  `recalc_density` changes the view 'surface_weather' but writes back the view 'all': once any element does not float, densities are never updated again.
- **Roc** (C117, C118, C121 to C123): after a shortage a mass in kilograms is added to the boom's room in cubic feet, which makes the next burn take negative time; a second cycle in one step replaces the collected volume of the first; `_time_burning` adds the time that remains instead of the time that passed; the time to fill a tank is 60 times too long, so a full tank books 42 times its room; the oil skimmed in gallons is used as kilograms; an interval shorter than half a time step never takes place; `next_interval_index` of an empty schedule is an IndexError; rewinding keeps the rest of a burn and the flags of a skimmer that travels or unloads.
- **Oil** (C125 to C128): the density of an oil jumps at every measurement but the lowest, because the expansion coefficient is relative to the lower density while the formula divides; `GnomeOil.initialize_elements` calls the method of `Substance` without the environment, so new elements get the density in the oil's own water (which a run sets to the first water of the environment only if the oil has none, see C132), or in a `Water()` of 300 K when there is none, whatever water the caller passes; an element that lost all its mass gets the density NaN and turns `avg_density` of the spill into NaN; when no mass is left the averages keep their last values; `initialize_elements(0, ...)` rewrites all elements because of `slice(-0, None)`.
- **Vis** (C129 to C131): two viscosity measurements at one temperature give an oil that thickens when warmed (the least squares solution of smallest norm); without fresh measurements the viscosity is 1 m2/s; `_k_v2` and `_visc_A` survive a change of the measurements, and cached vapour pressures a change of the boiling points; a water content above 99.7 per cent makes the viscosity NaN.
- **Set** (C132 to C136): default references are never renewed, so exchanging the water or wind of the environment between runs leaves oils and weatherers with the old one; `setup_model_run` switches on spreading and Langmuir weatherers the user switched off, and of several spreading weatherers the last, which the sorting may change from one run to the next; `add_env(..., quash=True)` returns inside its loop after the first item; `Waves.validate` always says valid; `validate` demands wind, water or waves in the environment even of objects that have their own; `check_inputs` tests the signs of time step and duration only for negative time steps (and tests the same condition twice).
- **Upd** (C137 to C141): `update_from_dict` empties and refills lists and collections in place and then compares them with themselves, so it returns False when only a collection (or an object inside) changed; when an item of a collection is refused, the collection is left with the items before it and objects inside are already changed; `ObjType.deserialize` calls `update_from_dict` without the table of references, so inside a new object a known object that names another known object gets a copy of it.
- **Eq** (C142 to C145): `==` of two objects of one class raises TypeError when a float stands against None (a Wind with latitude 20.0 against one without), and ValueError when arrays have as many entries but another shape; an object with a NaN is not equal to itself; equality is neither symmetric nor transitive (99999.0 == 100000.0 but not the other way round); `_diff` without fail_early raises AttributeError for objects of different classes instead of listing the difference. The docstring of `__eq__` gives ATOL as 1e-08, the class has 1e-38.
- **Nc** (C146 to C149): in a run with uncertainty the two NetCDF files share one start index (`_start_idx`, netcdf.py line 764); once the two sets have different numbers of elements (elements that leave the map are removed from each set separately) steps overwrite one another or leave gaps in the forecast file. `read_data(time=...)` of a backward run gives the first step for every time; an index below -n gives a mixture of the last and the first step instead of IndexError; `which_data='most'` in read_data is taken as a list of letters and returns nothing; the list of arrays to output is cut down in the first run and never grows back, and stays enlarged after 'all'; a mass balance that appears only after the run was prepared raises KeyError.
- **Wav** (C150 to C154): `Adios2.mean_wave_period` has a factor of the wind too many (`U * 0.71 * U**1.23`), so periods are too long by the wind speed (more than 1200 s at 32 m/s; its comment says 15.7 s); the wave height falls by up to 2 per cent when the wind passes the value at which the fetch starts to matter; `Water.units = ...` with one invalid unit raises after the units before it have been changed; `Water.get('density')` is wrong once `units['density']` is another unit than kg/m^3. `natural_dispersion` and `Waves` read `water.kinematic_viscosity` and `water.salinity` without units.
- **Gc** (C155 to C157): gridcur files: row or column 0 is taken for the last one instead of an error; an empty line before the header raises GridCurReadError; `write_gridcur` drops seconds, writes nan for the distance in a grid of one row, makes unequal distances equal, and units of several words are cut when read; `from_gridcur(..., extrapolation_is_allowed=True)` ignores its argument.
- **Fil** (C158 to C164): a zipped BinaryOutput whose last step is not to be written ends in FileNotFoundError and all output of the run is lost (the archive is overwritten by an empty one); without a directory in its file name a second run raises ValueError, with one it deletes all files of the kind in the directory; dates in the years 1 to 3 raise ValueError. `OilBudgetOutput(on=False)` writes all the same. `TrajectoryGeoJsonOutput` overwrites each forecast file with the uncertain features (none in a certain run) and ignores `round_data=False`; it and `WeatheringOutput` write every step when off. Binary, KMZ and NetCDF outputters that are off and given to the constructor of Model raise ValueError (their cache is None: the callbacks are registered after the outputters are added); with `output_zero_step=False` and never prepared they raise AttributeError. KMZ layers leave gaps or overlap if the interval is not a multiple of the time step, end before they begin in backward runs, and there is no file if the caller stops early.
- **Plm** (C165 to C168): the loop over a `PlumeGenerator` leaves out the rest of the duration after the last whole time step, with its elements; a duration shorter than the time step gives nothing. `VerticalPlumeRelease.set_newparticle_positions` raises ValueError in a step without new elements (`[-0:]` is the whole array), and before that AttributeError in every step, for it adds to `num_released`, which no class sets; a `Spill` calls neither this method nor `num_elements_to_release`, so in a run the base class raises ValueError when the release time is reached (also for `InitElemsFromFile`); without end and number of elements it raises OverflowError.
- **Srf** (C169 to C171): the hour bins of `surface_conc_kde` leave out oil older than the bin (the comment says 6 hours), so two elements of one spill at one place get different values; an unknown algorithm is refused only if there are elements. In `calculate_contours` a single cutoff leaves out all elements above it, the largest cutoff is never used, values on a cutoff are in two contours, and the structure that the docstring documents (without `cutoff_id` and `color`) raises KeyError.
- **Dst** (C172 to C174): `WeibullDistribution` accepts equal limits, although its message asks for a maximum above the minimum, and then never ends unless exactly that size is drawn; limits changed afterwards and the signs of alpha and lambda_ are not checked (negative sizes, endless loop). `compute_fraction` has `lambda_ - float(lambda_)` where a conversion was meant. Rayleigh quantiles do not refuse fractions outside 0 to 1.
- **Dis** (C175 to C177): `Dissolution` calls `np.alltrue`, which NumPy 2 does not have, while the requirements ask for NumPy 2: every step with surface oil raises AttributeError. Without waves and with droplets of size 0, as at the start, a step fails in an assertion. The rate at the slick multiplies the winds of all elements (`np.prod`), so what an element loses depends on how many others there are.
- **Prl** (C178 to C185): `PolygonRelease.thicknesses = None` (and `weights`) raises KeyError where nothing was set; a wrong number of thicknesses is accepted by the setter. Without weights and thicknesses the shares go by square degrees, not by area. Weights off by less than 1e-5 pass `prepare_for_model_run` and are refused by NumPy in the run. `GridRelease` with one number: a narrow box divides by zero and a wide one has no elements; a negative pair is accepted. A `NESDISRelease` releases all polygons at the time of the first record; a null OILTYPE is an AttributeError, an empty file an IndexError. Changing the time zone of an instantaneous release without an end gives it the difference of the zones as a duration, or fails. The `polygons` setter uses an undefined name; `GridRelease.initialize_elements` uses an undefined name with `retain_initial_positions`.
- **Fld** (C186 to C192): `GnomeOil.__deepcopy__` goes through the json, so the oil of the uncertain spills has arrays rounded to eight digits: mass fractions that sum to one need not in the copy, so that the components of an uncertain element do not make up its mass, and two reference temperatures can become equal. `LocalDateTime` drops the time zone without converting: 12:00+02:00 is read as 12:00. Two times within a second make a time series invalid. With `raw_paths` false two files of one name in two folders become one name.
- **Spl** (C193 to C199): two spills made from one release share its mass, so that setting the amount of one changes that of the other. Giving a spill in units of volume another substance changes its amount. `Spill(release=r)` overwrites the mass of the release by the amount of the spill, 0 by default, and ignores `num_elements`; `Spill(num_elements=None)` releases one element per step. Shifting the amount up and then down does not give it back. `num_per_timestep = None` raises TypeError after dropping the rate, which leaves the release with neither number nor rate; a negative rate is accepted. The helper functions set the windage on the substance object given, so that spills which share a substance all have the windage of the last.
- **Mrg** (C200 to C203): `Model(movers=[m])` does not put the wind of the mover into the environment, `model.movers += m` does. `merge` copies `_num_time_steps` from the other model if the model has no time step, which then disagrees with its own duration. `add_weathering('evaporation')` is refused: the letters of the text are taken as names; after an unknown name the names before it stay added. `find_by_class(..., ret_all=True)` returns None, not an empty list, if there is none.
- **Mig** (C204 to C208): loading a save folder updates it in place. A folder of a newer version than known is accepted. A write that is interrupted leaves a file, or version.txt, which no update can read any more; from version 0 an interruption after the element type is removed cannot be repaired; from version 1 an interruption leaves initializers. With two element types all spills get the substance of the first; two substances that share an InitWindages make the update fail (unlink twice) after version 2 is written, and loading again succeeds. Of two WeatheringData named one after the other the second stays named although its file is gone (a list changed while going through it). Oils that are replaced all have the same id, and the oil made by v0tov1 has another class name than the one v1tov2 checks.
- **Brd** (C209 to C211): a value given twice in the uncertainties of a broadcaster leaves one copy without uncertainty and gives it to the other twice. `handle_child_exception` calls `with_traceback()` without an argument, so that every exception of a copy reaches the caller as a TypeError. A command to one copy that times out leaves the REQ socket waiting: every later command to that copy or to all raises. One after the other with a timeout, a late answer leaves the new timeout. A stopped broadcaster answers None to everything.
- **Nce** (C212, C213): `Environment.__metaclass__` has no effect in Python 3, so that `Environment._subclasses` stays empty: `env_from_netCDF` without a list of classes and `ice_env_from_netCDF` return nothing for every file, and `get_file_analysis` always raises (unbound `report`). A `grid` given to `env_from_netCDF` is popped and never passed on. A required reference whose class has no object yet is filled by a second object of the class itself, which is in the result too (`attempt_from_netCDF` uses `c`, and `klass` is not used).
- **Hul** (C214 to C217): an element whose value is equal to an inner cutoff is in two contours, and with a single cutoff larger values are in none (the last cutoff is used only if it is the only one). `default_unit_map` offers Depth and Windage, for which the frame of `calculate_contours` has no column: every step raises a KeyError, as for viscosity or surface concentration when the elements have none. `SpillJsonOutput` has no method `output_to_file`: with an `output_dir` every written step raises an AttributeError. The uncertain bounds are around the elements of both containers.
- **Bna** (C218, C219): a polygon of three points whose last repeats the first is read as a polygon of two points. A coordinate line with one number fills both coordinates with it, since the list is assigned to a row of a numpy array. The character before the number of points is dropped without a test that it is a comma, so that a header ending in `"b"12` announces two points. `ReadBNA` does not pass `dtype` on for a PolygonSet, and does not close the file when it raises.
- **Shp** (C220, C221): the names of the temporary shapefiles are made with `with_suffix` from a stem that may have a dot: for `run.1.shp` all four are `run.zip`, so that the uncertain elements take the place of the certain ones in the output. With `zip_output=False` and uncertainty the bundle has only the `.shp` parts of the shapefiles, which cannot be read without the others. With `zip_output=False` and the default `include_uncertain_boundary=True` the steps tell of a `.zip` file that is never written. An outputter that is switched on during a run raises an AttributeError at its end, as `uncertain` was never set.
- **Tid** (C222, C223): a tide file of one line, or an empty one, raises an IndexError, not the ValueError written for it: the split at carriage returns gives one line, as text files are opened with universal newlines. `Tide(scale_factor=0)` has the scale factor of the file. `get_datafile` writes to the final name: after a stop, or a network error during the transfer, the part that was written is returned as the file by every later call.
- **Avg** (C224, C225): a `RunningAverage` whose hours, or whose wind, are changed during a run goes on with the old average for as long as it covers the model time (up to 48 hours). `MemoryOutputter` refuses uncertainty after it has stored the certain container of the same step; a container without one of the arrays leaves an entry that has only some of them.
- **App** (C226): `Appearance.update_from_dict` pops the name, the type and the id without a default: an update with some settings only raises a KeyError and sets none of them (but a name that was given is set).
