{"id": "C01", "title": "Ordered collection keeps insertion order", "statement": "After any sequence of add, remove (by id or by position), replace-by-id with a new object, and clear, iterating an OrderedCollection yields exactly the objects currently in it, in the order in which they were added, with a replaced object's successor standing in its predecessor's place; errors leave the contents unchanged.", "quantifier": "all element types, all initial collections built by add, all finite histories of add/remove/replace-by-id/clear including failing calls", "why_tests_cant": "Removed slots stay in the internal list forever; only an induction over all histories shows iteration never sees or skips a slot.", "anchors": ["py_gnome/gnome/utilities/orderedcollection.py: add, remove, replace, __iter__, clear"]}
{"id": "C02", "title": "Ordered collection length, membership and iteration agree", "statement": "After any such history, len(oc) equals the number of objects iterated, an id is 'in' the collection exactly when the object with that id is iterated, and no id occurs twice.", "quantifier": "all finite histories of add/remove/replace-by-id/clear", "why_tests_cant": "len and 'in' read the index dict, iteration reads the slot list: their agreement is an invariant across every history.", "anchors": ["py_gnome/gnome/utilities/orderedcollection.py: __len__, __contains__, __iter__, _d_index"]}
{"id": "C03", "title": "Positional and id lookup agree with iteration order", "statement": "oc[k] is the k-th object iterated (negative k counts from the end), out of range raises IndexError; oc[id] is the object iterated with that id, otherwise KeyError; oc.index(id) is the position p with oc[p] the object of that id.", "quantifier": "all reachable collections, all integers k, all ids", "why_tests_cant": "Lookup goes through sorted slot numbers; the claim is over all histories with holes.", "anchors": ["py_gnome/gnome/utilities/orderedcollection.py: get, __getitem__, index"]}
{"id": "C04", "title": "Assigning oc[k] replaces the k-th element", "statement": "For every reachable collection and 0<=k<len(oc), oc[k]=x makes x the k-th iterated object and changes nothing else.", "quantifier": "all reachable collections, all positions, all fresh objects", "why_tests_cant": "The failure needs a removal earlier in the history; the property must hold for each history.", "anchors": ["py_gnome/gnome/utilities/orderedcollection.py: replace, __setitem__"]}
{"id": "C05", "title": "Collection callbacks fire exactly once per change", "statement": "Every successful add, remove or replace notifies each callback registered for that event exactly once, with the affected object, in order; an add of an object already present and a failing call notify nobody.", "quantifier": "all finite histories, all callback registrations", "why_tests_cant": "An 'exactly once' claim over all histories.", "anchors": ["py_gnome/gnome/utilities/orderedcollection.py: fire_event, register_callback, add, remove, replace"]}
{"id": "C06", "title": "A full run visits every step time exactly once", "statement": "A run started by rewind yields steps 0..num_time_steps-1 in order, the k-th at model time start_time + k*time_step, and then StopIteration; further calls keep raising StopIteration without advancing.", "quantifier": "all start times, time steps, durations, numbers of calls to step", "why_tests_cant": "Unbounded number of steps and all parameter combinations.", "anchors": ["py_gnome/gnome/model.py: step, full_run, current_time_step, rewind"]}
{"id": "C07", "title": "The number of steps covers the duration and no more", "statement": "For positive time step and non-negative duration the last step is at the largest multiple of the time step not exceeding the duration; changing time_step or duration keeps this true.", "quantifier": "all durations and time steps (both signs)", "why_tests_cant": "Integer division corner cases over all values and all setter histories.", "anchors": ["py_gnome/gnome/model.py: _reset_num_time_steps, time_step, duration setters"]}
{"id": "C08", "title": "Running backwards mirrors running forwards", "statement": "A model switched (or constructed) with run_backwards=True takes the same number of steps as the forward model with the same magnitudes, at the mirrored times, whatever the sign of the time_step given.", "quantifier": "all durations, time steps, orders of the setter calls", "why_tests_cant": "The sign handling depends on the order of setters; only some orders fail.", "anchors": ["py_gnome/gnome/model.py: run_backwards setter, __init__, _reset_num_time_steps"]}
{"id": "C09", "title": "Weathering sub-steps tile the model time step", "statement": "The sub-steps of a model step are contiguous, start at the model time, have positive length and their lengths add up to the time step; at most one more than requested sub-step whenever the remainder is shorter than a sub-step.", "quantifier": "all positive integer time steps and sub-step counts not larger than the time step", "why_tests_cant": "Division remainders: for all pairs of integers.", "anchors": ["py_gnome/gnome/model.py: _split_into_substeps"]}
{"id": "C10", "title": "Setting changes that invalidate results rewind the model", "statement": "After changing start_time, time_step, map, uncertain or run_backwards, or adding/replacing a mover, weatherer, environment object or outputter, or shortening the duration, the next step is step 0.", "quantifier": "all states, all setter/collection histories", "why_tests_cant": "Needs to hold at any point of any history of edits and steps.", "anchors": ["py_gnome/gnome/model.py: rewind, setters, _register_callbacks"]}
{"id": "C11", "title": "A process is active exactly when its window contains the step midpoint", "statement": "A mover or weatherer that is on acts in a step exactly when active_start <= model_time + time_step/2 <= active_stop, with +-infinite ends allowed; hence for windows sharing an endpoint strictly between midpoints each step is covered by exactly one of the two.", "quantifier": "all windows including infinite, all step times and signs", "why_tests_cant": "All relations of window ends to step grids.", "anchors": ["py_gnome/gnome/movers/movers.py: Process.prepare_for_model_step", "py_gnome/gnome/utilities/inf_datetime.py"]}
{"id": "C12", "title": "Infinite times compare as a total order with datetimes", "statement": "InfDateTime('-inf') is below and InfDateTime('inf') above every datetime, each equals itself only, and comparison operators are consistent with a total order.", "quantifier": "all triples of times finite or infinite", "why_tests_cant": "Order laws quantify over all triples and operand orders (reflected operators).", "anchors": ["py_gnome/gnome/utilities/inf_datetime.py: InfTime, MinusInfTime"]}
{"id": "C13", "title": "Release count is monotone, bounded and starts at zero", "statement": "The number of elements released so far never decreases, is zero until the release time is reached, never exceeds the number the release was prepared for, and equals it once the release end has been reached.", "quantifier": "all release windows, element counts, model steps and half-step call sequences", "why_tests_cant": "All relations between release window and model grid; ceil/interp corner cases.", "anchors": ["py_gnome/gnome/spills/release.py: generate_release_timeseries, num_elements_after_time", "py_gnome/gnome/spills/spill.py: release_elements"]}
{"id": "C14", "title": "Total released does not depend on how the run is cut into calls", "statement": "For any two monotone sequences of release calls ending at the same time, the same number of elements has been released in total.", "quantifier": "all call sequences", "why_tests_cant": "Quantifies over pairs of arbitrary sequences.", "anchors": ["py_gnome/gnome/spills/spill.py: release_elements"]}
{"id": "C15", "title": "Released mass adds up to the spill amount", "statement": "Each element gets the same initial mass and the initial masses of all elements a finished release has released add up to the spilled mass.", "quantifier": "all amounts, element counts, windows", "why_tests_cant": "All counts and windows, not samples.", "anchors": ["py_gnome/gnome/spills/release.py: prepare_for_model_run, initialize_elements"]}
{"id": "C16", "title": "All data arrays of a spill container always have the same length", "statement": "After any sequence of releases (from several spills), removals of elements and rewinds, every data array has one entry per live element.", "quantifier": "all histories, any number of spills and array types", "why_tests_cant": "An invariant over unbounded histories.", "anchors": ["py_gnome/gnome/spill_container.py: _append_data_arrays, release_elements, model_step_is_done, rewind"]}
{"id": "C17", "title": "Element ids are unique and increasing within a run", "statement": "Ids handed out by a container within a run are pairwise distinct and increasing in array order, also after elements have been removed.", "quantifier": "all histories of releases and removals with several spills", "why_tests_cant": "The id counter is re-derived from the array after each append: uniqueness depends on the removal history.", "anchors": ["py_gnome/gnome/spill_container.py: release_elements, model_step_is_done", "py_gnome/gnome/array_types.py: IdArrayType"]}
{"id": "C18", "title": "Removing elements keeps the others untouched", "statement": "model_step_is_done removes exactly the elements marked to_be_removed and keeps all data of the others, in order.", "quantifier": "all containers and status arrays", "why_tests_cant": "All element counts and mark patterns.", "anchors": ["py_gnome/gnome/spill_container.py: model_step_is_done"]}
{"id": "C19", "title": "Weathering a fate view changes only the selected elements", "statement": "A view of the elements with a given fate holds exactly the elements with that fate and positive mass, in order; writing the view back updates exactly those elements, leaves the others unchanged and reading again gives the written values.", "quantifier": "all containers, fates, view edits that keep fate and positive mass", "why_tests_cant": "Locality for all masks and data.", "anchors": ["py_gnome/gnome/spill_container.py: FateDataView"]}
{"id": "C20", "title": "Splitting an element conserves mass and position in the array", "statement": "split_element replaces one element, in its place in the arrays, by n equal pieces, divides masses so they add up to the original mass, copies other data, and keeps every other element.", "quantifier": "all arrays, ids, split lists", "why_tests_cant": "All fractions and array sizes.", "anchors": ["py_gnome/gnome/spill_container.py: split_element", "py_gnome/gnome/array_types.py: ArrayTypeDivideOnSplit"]}
{"id": "C21", "title": "Forecast and uncertain spills stay in lock-step", "statement": "For any history of adding/removing spills and switching uncertainty on/off through the pair, the uncertain container holds as many spills as the forecast container while uncertainty is on.", "quantifier": "all histories of pair operations", "why_tests_cant": "An invariant over all histories.", "anchors": ["py_gnome/gnome/spill_container.py: SpillContainerPair"]}
{"id": "C22", "title": "A cleanup option operates for exactly the overlap with its active window", "statement": "Over a run the summed operating time of a skimmer/burn/dispersion equals the length of the intersection of the run with the active window.", "quantifier": "all windows, run starts, time steps", "why_tests_cant": "All alignments between window and step grid.", "anchors": ["py_gnome/gnome/weatherers/cleanup.py: _set__timestep, prepare_for_model_step"]}
{"id": "C23", "title": "Marking picks the shortest prefix of elements that covers the requested mass", "statement": "Marking elements for skim/burn/disperse marks a prefix of the eligible elements, enough to reach the requested mass and no more than necessary.", "quantifier": "all mass arrays, requested masses", "why_tests_cant": "All prefixes and masses.", "anchors": ["py_gnome/gnome/weatherers/cleanup.py: _update_LE_status_codes"]}
{"id": "C24", "title": "Cleanup never removes more than is there and books what it removes", "statement": "Skimming, dispersing and burning reduce element masses by exactly the amount added to the mass balance, never below zero.", "quantifier": "all element masses, rates, efficiencies", "why_tests_cant": "All floating inputs/regimes, exact accounting.", "anchors": ["py_gnome/gnome/weatherers/cleanup.py: Skimmer.weather_elements, Burn.weather_elements, ChemicalDispersion.weather_elements"]}
{"id": "C25", "title": "Weathering conserves mass", "statement": "Evaporation, natural dispersion, half-life decay and manual beaching lower component masses and book exactly the difference in the mass balance; component masses stay non-negative and element mass equals the sum of its components.", "quantifier": "all mass component arrays, decay constants, fractions", "why_tests_cant": "All arrays; exact equation.", "anchors": ["py_gnome/gnome/weatherers/evaporation.py: weather_elements", "py_gnome/gnome/weatherers/natural_dispersion.py: weather_elements", "py_gnome/gnome/weatherers/core.py: HalfLifeWeatherer.weather_elements", "py_gnome/gnome/weatherers/manual_beaching.py: weather_elements"]}
{"id": "C26", "title": "Half-life decay does not depend on the step size", "statement": "Decaying over t1 then t2 equals decaying over t1+t2, and one half-life halves each component.", "quantifier": "all masses, half-lives, durations", "why_tests_cant": "A functional equation over reals.", "anchors": ["py_gnome/gnome/weatherers/core.py: HalfLifeWeatherer"]}
{"id": "C27", "title": "Fay spreading never shrinks nor exceeds the terminal area", "statement": "Area of each element is non-decreasing under spreading and bounded by its maximum area once it is.", "quantifier": "all elements, ages, volumes", "why_tests_cant": "All real inputs.", "anchors": ["py_gnome/gnome/weatherers/spreading.py: FayGravityViscous.update_area, init_area"]}
{"id": "C28", "title": "Langmuir coverage is a fraction between 0.1 and 1", "statement": "The fraction of area covered computed by Langmuir circulation is always within [0.1, 1].", "quantifier": "all wind speeds, thicknesses", "why_tests_cant": "All inputs.", "anchors": ["py_gnome/gnome/weatherers/spreading.py: Langmuir._get_frac_coverage"]}
{"id": "C29", "title": "Weatherers run in the documented order however they were added", "statement": "After setup the weatherers are ordered by the documented sequence, keeping exactly the same weatherers and the relative order of equals.", "quantifier": "all lists of weatherers", "why_tests_cant": "All permutations and multiplicities.", "anchors": ["py_gnome/gnome/weatherers/__init__.py: sort_order, weatherer_sort", "py_gnome/gnome/model.py: _order_weatherers"]}
{"id": "C30", "title": "Land check walks a connected straight path and terminates", "statement": "The pixel walk from start to end always terminates after max(|dx|,|dy|) moves, each move goes to one of the eight neighbours, stays within the bounding box of the two points and ends at the end point.", "quantifier": "all pairs of pixels (any distance/direction)", "why_tests_cant": "All integer pairs.", "anchors": ["py_gnome/gnome/cy_gnome/cy_land_check.pyx: c_find_first_pixel"]}
{"id": "C31", "title": "No element passes land unnoticed", "statement": "If the land check reports no hit then no pixel of the walk that lies on the grid is land, and no diagonal move squeezes between two land pixels; if it reports a hit the hit pixel is a land pixel on the grid, and the previous pixel is adjacent to it, not land unless the start was.", "quantifier": "all rasters, all movements", "why_tests_cant": "All grids and movements.", "anchors": ["py_gnome/gnome/cy_gnome/cy_land_check.pyx: c_find_first_pixel, check_land"]}
{"id": "C32", "title": "Land check never reads outside the raster", "statement": "Every raster cell read by the check lies within the raster.", "quantifier": "all rasters and movements", "why_tests_cant": "Memory safety (Cython boundscheck off) for all inputs.", "anchors": ["py_gnome/gnome/cy_gnome/cy_land_check.pyx: c_find_first_pixel"]}
{"id": "C33", "title": "The layered (multi-resolution) check agrees with the full-resolution check", "statement": "check_land_layers reports a hit exactly when check_land does and at the same pixels.", "quantifier": "all rasters, ratios, movements", "why_tests_cant": "Needs all grids: disagreement only for lines near coarse cell corners.", "anchors": ["py_gnome/gnome/cy_gnome/cy_land_check.pyx: check_land_layers", "py_gnome/gnome/maps/map.py: build_coarser_rasters"]}
{"id": "C34", "title": "Coarse rasters mark every block that contains land", "statement": "A cell of a coarser raster is land exactly when some pixel of its block is land.", "quantifier": "all rasters and ratios", "why_tests_cant": "All sizes incl. non-divisible edges.", "anchors": ["py_gnome/gnome/maps/map.py: build_coarser_rasters"]}
{"id": "C35", "title": "Beached elements stop next to the land they hit", "statement": "After beaching, an element that hit land has status on_land, its position is the land pixel and its last water position is the previous pixel; elements that did not hit move to their next position; off-map elements are flagged.", "quantifier": "all maps, element sets", "why_tests_cant": "All configurations.", "anchors": ["py_gnome/gnome/maps/map.py: RasterMap.beach_elements, _set_off_map_status"]}
{"id": "C36", "title": "Refloating moves only land elements and puts them back into water", "statement": "Refloating changes status only of on_land elements which become in_water at their last water position; elements on tide flats etc. untouched; with halflife 0 all refloat and with -1 none.", "quantifier": "all element sets, random draws", "why_tests_cant": "All random outcomes.", "anchors": ["py_gnome/gnome/maps/map.py: RasterMap.refloat_elements"]}
{"id": "C37", "title": "Off-map mass is booked once", "statement": "When elements leave the map their mass is added to the 'off_maps' balance exactly once.", "quantifier": "all element sets", "why_tests_cant": "All mass arrays and positions.", "anchors": ["py_gnome/gnome/maps/map.py: GnomeMap._set_off_map_status, ParamMap.beach_elements"]}
{"id": "C38", "title": "Single-point and array land queries agree", "statement": "on_land for one point equals the array query for that point.", "quantifier": "all raster values, coordinates", "why_tests_cant": "All raster flag values.", "anchors": ["py_gnome/gnome/maps/map.py: _on_land_pixel, _on_land_pixel_array"]}
{"id": "C39", "title": "The cache returns what was saved", "statement": "Loading step k returns the spill data last saved for step k (certain and uncertain), whatever other steps were saved before or after; an unsaved step raises.", "quantifier": "all histories of save/load/rewind", "why_tests_cant": "All histories incl. re-saves and in-memory recent shortcut.", "anchors": ["py_gnome/gnome/utilities/cache.py: ElementCache"]}
{"id": "C40", "title": "Output is written at the documented schedule", "statement": "In a forward run with output_timestep T, output is written at step 0 (if output_zero_step), at every step where a multiple of T has been crossed since the previous step, and at the last step (if output_last_step).", "quantifier": "all time steps, output time steps, run lengths", "why_tests_cant": "All ratios of time steps; residue arithmetic accumulates.", "anchors": ["py_gnome/gnome/outputters/outputter.py: prepare_for_model_step, write_output"]}
{"id": "C41", "title": "Backward runs write output at the mirrored times", "statement": "A backward run writes output at the same step numbers as the mirrored forward run.", "quantifier": "all time steps, output steps", "why_tests_cant": "Residue arithmetic of negative numbers.", "anchors": ["py_gnome/gnome/outputters/outputter.py: prepare_for_model_step"]}
{"id": "C42", "title": "Extracting a save file writes only inside the target folder", "statement": "Every file written by extract_zipfile is a direct child of the target folder, whatever names the archive holds.", "quantifier": "all archive name lists", "why_tests_cant": "All adversarial names.", "anchors": ["py_gnome/gnome/persist/save_load.py: extract_zipfile"]}
{"id": "C43", "title": "Accepted save files have safe names and bounded sizes", "statement": "is_savezip_valid accepts only if no name contains '..', each json is within the size limit and each compression ratio is below the limit.", "quantifier": "all archives", "why_tests_cant": "All archives.", "anchors": ["py_gnome/gnome/persist/save_load.py: is_savezip_valid"]}
{"id": "C44", "title": "References name every object once and retrieve it", "statement": "Objects referenced get distinct names, the same object always the same name, and retrieve(reference(obj)) is obj.", "quantifier": "all histories of reference/retrieve", "why_tests_cant": "All histories (auto-generated names can collide with explicit ones).", "anchors": ["py_gnome/gnome/persist/save_load.py: References"]}
{"id": "C45", "title": "Point-in-polygon does not depend on how the polygon is listed", "statement": "Rotating or reversing the vertex list, repeating the closing vertex, or inserting repeated vertices does not change the answer.", "quantifier": "all polygons and points", "why_tests_cant": "All vertex lists.", "anchors": ["py_gnome/gnome/utilities/geometry/c_point_in_polygon.c: c_point_in_poly1", "py_gnome/gnome/utilities/geometry/PinP.py: CrossingsTest"]}
{"id": "C46", "title": "Adjacent polygons never both claim a point", "statement": "When a polygon is cut along a chord, each point is inside the polygon exactly when it is inside exactly one of the two parts; so no point on the common edge is lost or counted twice.", "quantifier": "all polygons, chords, points", "why_tests_cant": "All geometric configurations including points on edges.", "anchors": ["py_gnome/gnome/utilities/geometry/c_point_in_polygon.c: c_point_in_poly1"]}
{"id": "C47", "title": "Points outside the bounding box are outside the polygon", "statement": "A point strictly outside the bounding box of the vertices is never reported inside.", "quantifier": "all polygons and points", "why_tests_cant": "All vertex lists.", "anchors": ["py_gnome/gnome/utilities/geometry/c_point_in_polygon.c: c_point_in_poly1"]}
{"id": "C48", "title": "Polygon orientation test flips under reversal", "statement": "is_clockwise is invariant under rotation of the vertex list and translation, and flips on reversal whenever the signed area is not zero.", "quantifier": "all polygons", "why_tests_cant": "All vertex lists.", "anchors": ["py_gnome/gnome/utilities/geometry/poly_clockwise.py: is_clockwise"]}
{"id": "C49", "title": "A polygon set returns the polygons that were appended", "statement": "pset[i] is the i-th appended polygon with its metadata, len counts them, iteration yields all in order.", "quantifier": "all sequences of non-empty polygons", "why_tests_cant": "All sequences and sizes.", "anchors": ["py_gnome/gnome/utilities/geometry/polygons.py: PolygonSet"]}
{"id": "C50", "title": "Bounding box operations form a lattice", "statement": "The box made from points contains all the points and is contained in every box that does; Merge is the least upper bound; Inside/Overlaps are consistent with point membership.", "quantifier": "all boxes and point lists", "why_tests_cant": "All boxes.", "anchors": ["py_gnome/gnome/utilities/geometry/BBox.py: BBox"]}
{"id": "C51", "title": "Pixel/lon-lat conversion round-trips", "statement": "Converting a pixel to lon/lat (cell centre) and back gives the same pixel, and a point to pixel and back moves it by at most half a pixel; the image of a bounding box shows the whole box.", "quantifier": "all projections with positive scale, all pixels", "why_tests_cant": "All scales.", "anchors": ["py_gnome/gnome/utilities/projections.py: GeoProjection, FlatEarthProjection"]}
{"id": "C52", "title": "Longitude conversion normalises and keeps the meridian", "statement": "convert_longitude returns a value in the requested range that differs from the input by a multiple of 360.", "quantifier": "all longitudes", "why_tests_cant": "All reals.", "anchors": ["py_gnome/gnome/utilities/__init__.py: convert_longitude"]}
{"id": "C53", "title": "Wind uncertainty parameters stay aligned with elements", "statement": "While a wind mover is active in an uncertain run, it has exactly one uncertainty record per live element and each element keeps its own record when others are removed.", "quantifier": "all histories of release/removal/step", "why_tests_cant": "All histories.", "anchors": ["py_gnome/gnome/movers/py_wind_movers.py: WindMover"]}
{"id": "C54", "title": "Manual beaching removes exactly the observed volume", "statement": "Over a run the volume requested by the beaching schedule within the steps taken is exactly the piecewise-linear integral of the user's table over those steps.", "quantifier": "all tables, step grids", "why_tests_cant": "All alignments of table and steps.", "anchors": ["py_gnome/gnome/weatherers/manual_beaching.py: _remove_mass"]}
{"id": "C55", "title": "Time rounding and time conversion round-trip", "statement": "round_time returns the nearest multiple (ties up) of the rounding interval counted from midnight of the day; sec_to_date(date_to_sec(t)) is t for whole seconds, whatever the local time zone and its daylight saving.", "quantifier": "all times whose epoch seconds fit 32 unsigned bits, all positive intervals", "why_tests_cant": "All times.", "anchors": ["py_gnome/gnome/utilities/time_utils.py: round_time, date_to_sec, sec_to_date"]}
{"id": "C56", "title": "Movement schemes agree on steady fields", "statement": "For a velocity field constant in time and space Euler, RK2 and RK4 displace elements by velocity times time step; non-water elements are not moved.", "quantifier": "all velocities, time steps, elements", "why_tests_cant": "All inputs.", "anchors": ["py_gnome/gnome/movers/movers.py: PyMover.get_delta_Euler, get_delta_RK2, get_delta_RK4", "py_gnome/gnome/movers/simple_mover.py: get_move"]}
{"id": "C57", "title": "Ice damping factor lies between 0 and 1 and decreases with ice cover", "statement": "The factor the ice-aware random mover multiplies diffusion with is in [0,1], 1 below 20% and 0 from 80% and non-increasing.", "quantifier": "all ice concentrations", "why_tests_cant": "All reals.", "anchors": ["py_gnome/gnome/movers/random_movers.py: IceAwareRandomMover.get_move"]}
{"id": "C58", "title": "Every task of a multi-model broadcast is addressed by its pair of uncertainties", "statement": "The table mapping (wind, spill) uncertainty to task is a bijection with the row-major list of tasks when the levels are distinct.", "quantifier": "all level lists", "why_tests_cant": "All list sizes.", "anchors": ["py_gnome/gnome/multi_model_broadcast.py: ModelBroadcaster"]}
{"id": "C59", "title": "Coordinate conversions leave their input alone", "statement": "Converting an array of coordinates to pixels or back does not change the array that was passed in.", "quantifier": "all projections, all arrays and other sequences", "why_tests_cant": "Whether the caller's array is shared depends on its dtype.", "anchors": ["py_gnome/gnome/utilities/projections.py: GeoProjection.to_lonlat, RectangularGridProjection.to_pixel"]}
{"id": "C60", "title": "On a parameterised map elements stop on the shoreline", "statement": "An element whose movement ends on the land of a parameterised map stops at a point that lies both on the shoreline and on its own path, and is flagged as beached.", "quantifier": "all shorelines, all movements not parallel to the shoreline", "why_tests_cant": "All real geometries.", "anchors": ["py_gnome/gnome/cy_gnome/cy_land_check.pyx: move_particles", "py_gnome/gnome/maps/map.py: ParamMap"]}
{"id": "C61", "title": "InfDateTime accepts the dates between its bounds", "statement": "InfDateTime(year, ...) accepts exactly the calendar dates that exist and lie between 1970-01-01 and 2038-01-19, and accepted dates compare as their calendar fields do.", "quantifier": "all field values", "why_tests_cant": "All calendars days including leap years and boundaries.", "anchors": ["py_gnome/gnome/utilities/inf_datetime.py: InfDateTime.__new__"]}
{"id": "C62", "title": "The text of a time zone offset denotes the offset", "statement": "The sign, hours and minutes of TZOffset.as_iso_string give the same offset as as_timedelta, for negative and fractional hours too.", "quantifier": "all offsets in hours", "why_tests_cant": "All rationals.", "anchors": ["py_gnome/gnome/utilities/time_utils.py: TZOffset.as_timedelta, as_iso_string"]}
{"id": "C63", "title": "Shifting map longitudes moves every point that needs it", "statement": "Loading a map with shift_lons=360 leaves no negative longitude and keeps the others; with shift_lons=180 leaves none above 180.", "quantifier": "all point lists", "why_tests_cant": "All mixtures of signs.", "anchors": ["py_gnome/gnome/maps/map.py: ShiftLon360, ShiftLon180"]}
{"id": "C64", "title": "Release windows of a run tile the run", "statement": "Over a full run the time windows in which elements are released are one instant at the start followed by windows that lead from start_time to the time of the last step without gap or overlap.", "quantifier": "all start times, durations, even time steps (microseconds), directions, configurations", "why_tests_cant": "Needs every window of every run; half-steps and rounding differ per time step.", "anchors": ["py_gnome/gnome/model.py: step, release_elements, full_run"]}
{"id": "C65", "title": "Model time always equals start plus step times time step", "statement": "At any moment of any history of setting changes, collection changes and steps, including steps in which any component raises, the model is either rewound (model_time = start_time) or model_time = start_time + current_time_step * time_step.", "quantifier": "all histories of operations, all failure points of every step", "why_tests_cant": "Failure points and histories are unbounded.", "anchors": ["py_gnome/gnome/model.py: step, current_time_step, rewind, setters"]}
{"id": "C66", "title": "A failing step never skips and is never silent", "statement": "If any component raises inside step(), the exception reaches the caller, the step number is unchanged or one higher with a matching model time, and after the first step the end-of-run hook is called.", "quantifier": "all models, all steps, all failing calls", "why_tests_cant": "Every call of every component is a failure point.", "anchors": ["py_gnome/gnome/model.py: step, post_model_run"]}
{"id": "C67", "title": "Point and line releases start on their line", "statement": "Every element of a PointLineRelease starts on the straight segment from start_position to end_position, with one common fraction for all coordinates; with no end position it starts exactly on start_position.", "quantifier": "all releases, time steps, sequences of release calls", "why_tests_cant": "The position table is interpolated differently for every time step and call pattern.", "anchors": ["py_gnome/gnome/spills/release.py: PointLineRelease.generate_release_timeseries, initialize_elements"]}
{"id": "C68", "title": "Custom positions are used evenly", "statement": "With custom_positions every element starts on one of the given positions, and each position gets the even share of elements; only the remainder is drawn at random.", "quantifier": "all lists of positions, element numbers and random draws", "why_tests_cant": "Random draws and list lengths are unbounded.", "anchors": ["py_gnome/gnome/spills/release.py: Release.initialize_elements"]}
{"id": "C69", "title": "A rewound release behaves like a new one", "statement": "After any number of prepared runs, rewind() brings a release back to the state it had when new, so a second run releases the same elements with the same data.", "quantifier": "all releases, all histories of prepare, release and rewind", "why_tests_cant": "Histories are unbounded.", "anchors": ["py_gnome/gnome/spills/release.py: Release.rewind, PointLineRelease.rewind, initialize_elements_post_substance"]}
{"id": "C70", "title": "num_per_timestep releases that many per step", "statement": "A release created with num_per_timestep=k releases exactly k elements in every whole model time step of its duration.", "quantifier": "all releases, time steps and steps", "why_tests_cant": "Depends on rounding at every step.", "anchors": ["py_gnome/gnome/spills/release.py: Release.__init__, PointLineRelease.__init__, generate_release_timeseries"]}
{"id": "C71", "title": "In a backward run a spill appears at its release time", "statement": "When the model runs backwards, the elements of a spill exist from the moment the run reaches the release time, not before.", "quantifier": "all instantaneous releases, start times and negative time steps", "why_tests_cant": "Every combination of start, release time and step.", "anchors": ["py_gnome/gnome/spills/release.py: num_elements_after_time", "py_gnome/gnome/spills/spill.py: release_elements"]}
{"id": "C72", "title": "Movers act independently and add up", "statement": "In one model step on a map without land every element moves by the sum of the moves of all movers, each computed from the position at the start of the step; the order of the movers does not matter, mass and status are unchanged.", "quantifier": "all element sets, all finite lists of movers that depend on positions only", "why_tests_cant": "Every combination of movers and elements.", "anchors": ["py_gnome/gnome/model.py: move_elements", "py_gnome/gnome/maps/map.py: GnomeMap.beach_elements"]}
{"id": "C73", "title": "Writing output after the run selects the same steps", "statement": "write_output_post_run, given the cache of a finished run, writes the steps that the outputter would have written during the run.", "quantifier": "all schedules, time steps and run lengths", "why_tests_cant": "Equality of two schedules over all parameters.", "anchors": ["py_gnome/gnome/outputters/outputter.py: write_output_post_run"]}
{"id": "C74", "title": "The two point-in-polygon tests agree", "statement": "The compiled and the pure Python point-in-polygon tests give the same answer for every point that is not on the boundary.", "quantifier": "all polygons and points", "why_tests_cant": "Two algorithms over all real inputs; tests sample a few polygons.", "anchors": ["py_gnome/gnome/utilities/geometry/c_point_in_polygon.c: c_point_in_poly1", "py_gnome/gnome/utilities/geometry/PinP.py: CrossingsTest"]}
{"id": "C75", "title": "Point-in-polygon means the geometric interior", "statement": "A point off the boundary is in a triangle exactly when it is a positive combination of the corners; for a polygon of any shape the answer is the parity of the triangles of a fan that contain the point.", "quantifier": "all triangles, polygons and points off the boundary", "why_tests_cant": "Geometry over all real inputs.", "anchors": ["py_gnome/gnome/utilities/geometry/c_point_in_polygon.c: c_point_in_poly1"]}
{"id": "C76", "title": "Thinning a polygon does not change what is drawn", "statement": "Thinning drops only points that fall in the pixel of the point kept before them, keeps the order of points, keeps at least the first, is idempotent, and a set of polygons is thinned polygon by polygon.", "quantifier": "all polygons, sets and scales", "why_tests_cant": "Any number of points in any arrangement.", "anchors": ["py_gnome/gnome/utilities/geometry/polygons.py: Polygon.thin, PolygonSet.thin"]}
{"id": "C77", "title": "Releases from polygons follow weights and stay inside", "statement": "The shares of the release polygons are non-negative and add up to one, follow the areas or the given volumes, and every released element lies in a triangle of its polygon.", "quantifier": "all polygons, triangulations, weights and random draws", "why_tests_cant": "Random draws and arbitrary geometry.", "anchors": ["py_gnome/gnome/spills/release.py: PolygonRelease.get_polys_as_tris, compute_distribution, prepare_for_model_run, initialize_elements", "py_gnome/gnome/utilities/geometry/geo_routines.py: random_pt_in_tri, poly_area_weight"]}
{"id": "C78", "title": "The efficiency of a cleanup option is a fraction", "statement": "An efficiency is always None or a number between 0 and 1: assigning a number out of range leaves it as it was.", "quantifier": "all histories of constructing and assigning", "why_tests_cant": "Histories of assignments, including None and numbers out of range.", "anchors": ["py_gnome/gnome/weatherers/cleanup.py: CleanUpBase.efficiency"]}
{"id": "C79", "title": "A cleanup option never takes more over a run than it was set up for", "statement": "Over a run a skimmer takes at most its amount times its efficiency, a dispersion at most its fraction of the spilled mass times its efficiency, and a burn at most what its rate burns in its time, which is set so that the oil thicker than 2 mm burns; with enough oil a skimmer takes exactly its amount.", "quantifier": "all windows, step grids, elements at each step", "why_tests_cant": "All alignments, all mass histories.", "anchors": ["py_gnome/gnome/weatherers/cleanup.py: Skimmer", "py_gnome/gnome/weatherers/cleanup.py: Burn", "py_gnome/gnome/weatherers/cleanup.py: ChemicalDispersion"]}
{"id": "C80", "title": "The fate of an element follows its status, its depth and its substance", "statement": "Between moving and weathering an element of a substance that does not weather, or on land, becomes non-weathering; one in the water that is not being cleaned up becomes surface or subsurface weathering by its depth; any other keeps its fate.", "quantifier": "all elements", "why_tests_cant": "All combinations of flags, status and depth.", "anchors": ["py_gnome/gnome/model.py: Model._update_fate_status"]}
{"id": "C81", "title": "More wind or more time never evaporates less", "statement": "For the same elements, a wind that is everywhere at least as strong and a time step at least as long leave at most as much of every component of every element.", "quantifier": "all elements, substances, temperatures, winds, time steps", "why_tests_cant": "Reals; all pairs of winds and steps.", "anchors": ["py_gnome/gnome/weatherers/evaporation.py: Evaporation"]}
{"id": "C82", "title": "Evaporation does not depend on how many elements represent a spill", "statement": "Cutting every element into two parts in proportion gives, after a step, the parts of what the whole elements give, and the same mass in the mass balance.", "quantifier": "all elements, proportions, substances, winds, time steps", "why_tests_cant": "Reals; all ways of cutting.", "anchors": ["py_gnome/gnome/weatherers/evaporation.py: Evaporation._set_evap_decay_constant"]}
{"id": "C83", "title": "Fay spreading does not depend on how many elements represent a spill", "statement": "Cutting every element into two parts in proportion (area, share of the blob, mass) gives, after a spreading step, the parts of what the whole elements give, so the area of the spill is the same.", "quantifier": "all elements, proportions, viscosities, buoyancies, time steps", "why_tests_cant": "Reals; all ways of cutting.", "anchors": ["py_gnome/gnome/weatherers/spreading.py: FayGravityViscous.update_area"]}
{"id": "C84", "title": "The least thickness of a slick grows with viscosity between 1e-5 and 1e-4 m", "statement": "The thickness at which spreading stops lies between 1e-5 m and 1e-4 m for every kinematic viscosity of the oil and is at least as large for a more viscous oil.", "quantifier": "all viscosities", "why_tests_cant": "All reals.", "anchors": ["py_gnome/gnome/weatherers/spreading.py: FayGravityViscous.get_thickness_limit"]}
{"id": "C85", "title": "Elements released together share the initial area in proportion to their volumes", "statement": "The initial areas of elements released together are positive, add up to the initial area of the blob, are in proportion to the volumes, and none exceeds the volume of the element over the least thickness.", "quantifier": "all non-empty lists of elements with positive mass and density", "why_tests_cant": "All lists of reals.", "anchors": ["py_gnome/gnome/spills/release.py: Release.initialize_elements_post_substance", "py_gnome/gnome/weatherers/spreading.py: FayGravityViscous.init_area"]}
{"id": "C86", "title": "Langmuir coverage falls with the wind between the reported wind bounds", "statement": "A stronger wind, a thinner slick or a less buoyant oil never gives a larger coverage; coverage is 1 exactly up to the lower reported wind speed and 0.1 exactly from the upper one.", "quantifier": "all winds, thicknesses, buoyancies", "why_tests_cant": "All reals.", "anchors": ["py_gnome/gnome/weatherers/spreading.py: Langmuir._get_frac_coverage, _wind_speed_bound"]}
{"id": "C87", "title": "Emulsions only take up water and never more than the oil can hold", "statement": "Over a run the fraction of water of an element never falls, stays between 0 and the maximum of the oil, is 0 until the oil begins to emulsify, and the water content in the mass balance is within the same bounds.", "quantifier": "all runs from fresh elements, all winds (rates), evaporation histories, time steps", "why_tests_cant": "All histories.", "anchors": ["py_gnome/gnome/weatherers/emulsification.py: Emulsification.weather_elements", "py_gnome/lib_gnome/Weatherers_c.cpp: emulsify"]}
{"id": "C88", "title": "Spills spread independently of each other", "statement": "The areas and coverages that spreading and Langmuir cells give the elements of a spill are those they give if the other spills are not there.", "quantifier": "all lists of elements of several spills, all winds", "why_tests_cant": "All combinations of spills.", "anchors": ["py_gnome/gnome/weatherers/spreading.py: FayGravityViscous.weather_elements, Langmuir.weather_elements"]}
{"id": "C89", "title": "Higher-order movers integrate a time-varying uniform current exactly", "statement": "From a start at a whole second, when the velocity is the same everywhere and varies in time, the move in metres computed with the RK4 method equals the exact integral of the velocity over the step for every velocity that is a cubic polynomial of time, and the move computed with RK2 does so for every velocity linear in time, whatever the length and sign of the step, the number of elements and their positions.", "quantifier": "all polynomial velocities of the stated degree, all steps (forward and backward), all start times at a whole second, all positions", "why_tests_cant": "Tests evaluate the methods for a few fields; the order of a scheme is a statement about all fields of a degree.", "anchors": ["py_gnome/gnome/movers/movers.py: PyMover.get_delta_RK2, PyMover.get_delta_RK4, PyMover.delta_method", "py_gnome/gnome/utilities/time_utils.py: date_to_sec, sec_to_datetime"]}
{"id": "C90", "title": "Uncertain moves stay within the uncertainty of the mover", "statement": "With one uncertainty record per element within the along- and cross-current scales, the uncertain move of a current mover differs from the certain move by at most sqrt(along^2+cross^2) times its length and has the same vertical part; before the uncertainty delay is over it is the certain move. The uncertain move of a simple mover lies within the certain move plus or minus the uncertainty scale times the move, component by component. Elements not in water do not move.", "quantifier": "all velocity fields, schemes, records, scales, steps and element arrays; all random numbers", "why_tests_cant": "The records are random: a test sees some draws, the bound must hold for all.", "anchors": ["py_gnome/gnome/movers/py_current_movers.py: CurrentMover._add_uncertainty, CurrentMover.get_move", "py_gnome/gnome/movers/simple_mover.py: SimpleMover.get_move"]}
{"id": "C91", "title": "The ice-aware current lies between the current and the ice velocity", "statement": "At every point the velocity given by an ice-aware current lies, component by component, between the water velocity and the ice velocity; it is the water velocity where the ice concentration is below 20 percent and the ice velocity where it is 80 percent or more.", "quantifier": "all points, concentrations and velocities", "why_tests_cant": "The result depends on all points together (one icy point switches on the blending for all); tests use a few grids.", "anchors": ["py_gnome/gnome/environment/environment_objects.py: IceAwareCurrent.at"]}
{"id": "C92", "title": "The ice-aware wind is the wind reduced by the ice", "statement": "At every point the velocity given by an ice-aware wind is the wind velocity times one minus the ice factor of the concentration there: the wind below 20 percent, zero at 80 percent and above, linear between.", "quantifier": "all points, concentrations and velocities", "why_tests_cant": "Tests use a few grids and winds; the claim is for every wind direction and concentration.", "anchors": ["py_gnome/gnome/environment/environment_objects.py: IceAwareWind.at"]}
{"id": "C93", "title": "Ship drift moves the elements in water by windage times wind", "statement": "The move of a ship-drift mover is, for each element in water, its windage times the wind velocity times the step converted to degrees at the element's latitude, and zero for every other element.", "quantifier": "all wind fields, steps, element arrays and status mixes", "why_tests_cant": "Failures depend on which elements are in water together; tests use uniform statuses.", "anchors": ["py_gnome/gnome/movers/ship_drift_mover.py: ShipDriftMover.get_move"]}
{"id": "C94", "title": "Wind uncertainty turns and scales the wind, starting from no change", "statement": "In the uncertain container an element's wind is turned by its recorded angle times the angle spread and scaled by a factor that is not negative; the result is never undefined; when the uncertainty delay has just ended (spreads zero) the uncertain move equals the certain one, and the spreads only grow afterwards. A drawn record turns the wind by at most 60 degrees unless all eleven candidates do.", "quantifier": "all winds, steps (forward and backward), records, spreads and random numbers", "why_tests_cant": "Records are random and winds arbitrary: square roots of differences and the light-wind branch are hit only by particular combinations.", "anchors": ["py_gnome/gnome/movers/py_wind_movers.py: WindMover.add_uncertainty, WindMover.update_uncertainty, WindMover.update_uncertainty_values"]}
{"id": "C95", "title": "A saved object graph loads back as a copy with the same sharing", "statement": "Saving an object (for example a whole Model) to an archive and loading that archive gives a copy of the complete graph of objects it refers to: same classes, names, attributes, data-file contents and order of references; an object referred to from several places is one object again, distinct objects stay distinct even when they have the same name. Saving succeeds for up to 255 objects and data files. Conditions: names have something besides dots and no braces, the root's name does not begin with a dot and its class is not used inside the graph, data files exist, data files with the same last part have the same contents and do not end in .json.", "quantifier": "every finite graph of objects, every file system, every name, every order in which the folder is listed", "why_tests_cant": "the graph, its sharing and its name collisions are unbounded; tests save a few models with distinct names", "anchors": ["py_gnome/gnome/persist/base_schema.py:ObjType._save", "py_gnome/gnome/persist/base_schema.py:ObjType.load", "py_gnome/gnome/persist/base_schema.py:gen_unique_filename", "py_gnome/gnome/gnomeobject.py:GnomeObject.save", "py_gnome/gnome/gnomeobject.py:GnomeObject.load"]}
{"id": "C96", "title": "The value of a time series is interpolated linearly", "statement": "A wind or tide time series with ascending times has at every time between two consecutive entries a value whose components lie between theirs, on the straight line between them (to within 1e-5), and at the time of an entry exactly the entry's value. Before the first and after the last entry it has the nearest entry's value if extrapolation is allowed and raises IndexError otherwise; the range check says which. A series of one entry is constant. `Wind.at` gives the same values, raises ValueError instead and leaves the series' own extrapolation setting as it was. Several times are answered one by one.", "quantifier": "every ascending series of any length, every time, both extrapolation settings", "why_tests_cant": "the search in the table depends on its length and on the time; tests read a few times of a few tables", "anchors": ["py_gnome/lib_gnome/OSSMTimeValue_c.cpp:GetTimeValue", "py_gnome/lib_gnome/OSSMTimeValue_c.cpp:GetInterpolatedComponent", "py_gnome/gnome/cy_gnome/cy_ossm_time.pyx:CyOSSMTime.get_time_value", "py_gnome/gnome/environment/wind.py:Wind.at"]}
{"id": "C97", "title": "A time series whose times do not ascend is refused", "statement": "A Wind, Tide or other time series object made from data whose times do not strictly ascend raises an error, and ascending data are accepted unchanged.", "quantifier": "every sequence of time-value pairs", "why_tests_cant": "tests try one or two unordered tables, of the array form only", "anchors": ["py_gnome/gnome/utilities/timeseries.py:Timeseries._check_timeseries", "py_gnome/gnome/utilities/timeseries.py:Timeseries.__init__"]}
{"id": "C98", "title": "The running average of a time series is the mean speed of the past hours", "statement": "The running average over n past hours holds values at equal steps (the shortest gap of the series, at most an hour) through the whole series, or through 48 hours from the model time for longer series; each is the hourly trapezoid mean of the series' speed over the n hours before it, the first value being held before the record. So it lies between the least and the greatest speed.", "quantifier": "every ascending series, number of hours, model time and speed function", "why_tests_cant": "the error paths of the look-up depend on the model time and the extrapolation flag together; tests average one table", "anchors": ["py_gnome/lib_gnome/OSSMTimeValue_c.cpp:CalculateRunningAverage", "py_gnome/gnome/environment/running_average.py:RunningAverage"]}
{"id": "C99", "title": "Wind data come out as they were put in, whatever the units and coordinates", "statement": "Wind data put into a Wind (constructor, `timeseries`, `new_set_timeseries`, `set_wind_data`) in some velocity units, as speed and direction or as components, are given out by `get_wind_data` in any units and either coordinate system as the same winds at the same times; directions come out in [0, 360). Speeds and directions read in the units given are the same numbers. Negative speeds, directions outside 0..360 and arrays whose times do not ascend raise an error, and what the wind gives out stays as it was.", "quantifier": "every series, every pair of units, every pair of coordinate systems (string or enumeration)", "why_tests_cant": "the conversions are trigonometric and combine with units; tests compare a few values in one unit", "anchors": ["py_gnome/gnome/environment/wind.py:Wind.new_set_timeseries", "py_gnome/gnome/environment/wind.py:Wind.set_wind_data", "py_gnome/gnome/environment/wind.py:Wind.get_wind_data", "py_gnome/gnome/utilities/transforms.py:r_theta_to_uv_wind", "py_gnome/gnome/utilities/transforms.py:uv_to_r_theta_wind"]}
{"id": "C100", "title": "A wind's timeseries attribute shows the wind in use", "statement": "`Wind.timeseries`, read as speed and direction in the wind's `units`, is at all times the wind the model uses, whatever operations set it.", "quantifier": "every sequence of setting data, units and coordinates", "why_tests_cant": "the attribute and the C++ table are two copies updated by different operations; tests look at one after construction", "anchors": ["py_gnome/gnome/environment/wind.py:Wind.timeseries", "py_gnome/gnome/environment/wind.py:Wind.set_wind_data", "py_gnome/gnome/environment/wind.py:Wind.units"]}
{"id": "C101", "title": "Setting wind data leaves the caller's data alone", "statement": "Passing data to a Wind does not change the caller's array, so that two winds made from the same array are the same.", "quantifier": "every array or list, units and coordinate system", "why_tests_cant": "tests pass freshly made arrays and do not look at them again", "anchors": ["py_gnome/gnome/environment/wind.py:Wind.new_set_timeseries", "py_gnome/gnome/utilities/timeseries.py:Timeseries._xform_input_timeseries"]}
{"id": "C102", "title": "Changing a wind's time zone shifts its times and keeps its winds", "statement": "Changing the time zone of a wind from one known offset to another shifts every time by the difference and keeps every wind and the units; from or to an unknown zone nothing moves.", "quantifier": "every wind, however its data were set, and all offsets", "why_tests_cant": "the shift re-enters the shown data through unit conversion; tests shift winds in m/s", "anchors": ["py_gnome/gnome/environment/wind.py:Wind._set_timezone_offset"]}
{"id": "C103", "title": "Speed uncertainty raises or lowers all winds as asked", "statement": "`set_speed_uncertainty('up')` raises and `('down')` lowers every wind by one factor, keeping directions and times, for every scale in (0, 0.5]; other arguments or scales change nothing and return False.", "quantifier": "every wind and every scale", "why_tests_cant": "the factor comes from a distribution's quantile; tests try a scale of 0.5 or a middle one", "anchors": ["py_gnome/gnome/environment/wind.py:Wind.set_speed_uncertainty", "py_gnome/gnome/utilities/distributions.py:RayleighDistribution.quantile"]}
{"id": "C104", "title": "An element's windage stays in its range, and persists as asked", "statement": "Elements get a windage inside the `windage_range` of their substance when they are released, and at every later time, whatever the time step, the windage is inside that range; with infinite persistence (-1) it never changes again. A range with its ends swapped is refused.", "quantifier": "every history of releases and steps of any lengths, every outcome of the random generator", "why_tests_cant": "the windage is redrawn at every step from an interval that depends on the time step; tests use one step length and one seed", "anchors": ["py_gnome/gnome/utilities/rand.py:random_with_persistance", "py_gnome/gnome/spills/initializers.py:InitWindages.initialize", "py_gnome/gnome/spills/substance.py:Substance.windage_range", "py_gnome/gnome/movers/c_wind_movers.py:WindMoversBase.prepare_for_model_step"]}
{"id": "C105", "title": "The randomness of windages does not depend on the time step", "statement": "For elements with a finite windage persistence p the windage is redrawn at every step from an interval about the middle of the range whose width w satisfies w^2 |dt| = (hi - lo)^2 p, so that the random spread over a given time is the same for every time step. Swapped ranges and a time step 0 raise an error.", "quantifier": "every list of elements, time step (either sign) and random outcome", "why_tests_cant": "the scaling law ranges over all step lengths; a test can only sample the distribution for one", "anchors": ["py_gnome/gnome/utilities/rand.py:random_with_persistance", "py_gnome/gnome/spills/substance.py:Substance.windage_persist"]}
{"id": "C106", "title": "The random walk moves floating elements, and no others, within its reach", "statement": "In a step dt `RandomMover` moves every element in the water at the surface by the two draws times sqrt(6 D |dt|) metres north and east (D the diffusion coefficient in m2/s; times sqrt(uncertain_factor) for uncertain elements), in the same way forwards and backwards in time; it never changes the depth and does not move submerged, beached or otherwise inactive elements. The coefficient is never negative and the factor never under 1: other values are refused.", "quantifier": "every element, latitude up to the poles, time step, random outcome, and every history of settings and steps", "why_tests_cant": "random displacements; tests check variances of one large sample", "anchors": ["py_gnome/lib_gnome/Random_c.cpp:Random_c::GetMove", "py_gnome/lib_gnome/Random_c.cpp:Random_c::get_move", "py_gnome/gnome/cy_gnome/cy_random_mover.pyx:CyRandomMover", "py_gnome/gnome/movers/random_movers.py:RandomMover"]}
{"id": "C107", "title": "The three-dimensional random walk keeps elements in the water column", "statement": "With `surface_is_allowed=False`, after a step of `RandomMover3D` every element in the water is below the surface and not below the bottom. Horizontally it moves by the draws times the reach of the coefficient of its layer, vertically by the draws times the reaches of the vertical coefficients, reflected at the base of the mixed layer, the surface and the bottom. With `surface_is_allowed=True` floating elements keep their depth.", "quantifier": "every element, mover setting, time step and random outcome", "why_tests_cant": "five nested cases of reflection and random replacement; a test sees only the outcomes of its seed", "anchors": ["py_gnome/lib_gnome/RandomVertical_c.cpp:RandomVertical_c::GetMove", "py_gnome/gnome/cy_gnome/cy_random_mover_3d.pyx:CyRandomMover3D", "py_gnome/gnome/movers/random_movers.py:RandomMover3D"]}
{"id": "C108", "title": "Without diffusion below it, nothing leaves or enters the mixed layer", "statement": "If `vertical_diffusion_coef_below_ml` is 0, `RandomMover3D` keeps elements of the mixed layer in the mixed layer, and does not move deeper ones vertically.", "quantifier": "every element, mixed layer depth, time step and random outcome", "why_tests_cant": "depends on how far a random step can reach against the depth of the layer", "anchors": ["py_gnome/lib_gnome/RandomVertical_c.cpp:RandomVertical_c::GetMove"]}
{"id": "C109", "title": "The rise velocity of a droplet follows the two laws and has no jumps", "statement": "The rise velocity of a droplet lighter than water follows Stokes' law below 0.2 mm and the form drag law from 1 cm on; in between it is a continuous extension of the two, never negative, and a larger droplet never rises more slowly. A droplet denser than water sinks.", "quantifier": "every size, density and viscosity of at least half that of water", "why_tests_cant": "continuity and monotony are statements about all sizes; tests compare a few values", "anchors": ["py_gnome/lib_gnome/RiseVelocity_c.cpp:GetRiseVelocity", "py_gnome/gnome/spills/initializers.py:InitRiseVelFromDropletSizeFromDist.initialize", "py_gnome/gnome/cy_gnome/cy_rise_velocity_mover.pyx:rise_velocity_from_drop_size"]}
{"id": "C110", "title": "Rising changes the depth alone, by velocity times time, in either direction of time", "statement": "`RiseVelocityMover` changes the depth of every element in the water by its rise velocity times the time step, upwards in a forward run and downwards in a backward run, moves nothing horizontally, and leaves other elements alone.", "quantifier": "every list of elements and every time step of either sign", "why_tests_cant": "tests run forwards", "anchors": ["py_gnome/lib_gnome/RiseVelocity_c.cpp:RiseVelocity_c::get_move", "py_gnome/gnome/cy_gnome/movers.pxd:RiseVelocity_c", "py_gnome/gnome/movers/vertical_movers.py:RiseVelocityMover.get_move"]}
{"id": "C111", "title": "Elements on a dry tide flat do not move, and go on when it is wet again", "statement": "With a `TideflatMap` every element that comes to a place where the flat is dry is stranded there: it stays at that place as long as the flat is dry there, and moves again once it is wet. Land comes first: what the land map beaches is beached, not stranded. `SimpleTideflat` is dry in its polygon from `dry_start` to `dry_end`.", "quantifier": "every run: any times of steps, movers, elements, and any behaviour of the flat in space and time", "why_tests_cant": "stranding depends on the history of each element against the tide over the whole run", "anchors": ["py_gnome/gnome/maps/tideflat_map.py:TideflatMap.beach_elements", "py_gnome/gnome/maps/tideflat_map.py:TideflatMap.refloat_elements", "py_gnome/gnome/maps/tideflat_map.py:SimpleTideflat.is_dry", "py_gnome/gnome/model.py:Model.move_elements"]}
{"id": "C112", "title": "A tide flat that is never dry changes nothing, and none loses mass", "statement": "Around any map, a tide flat that is not dry at any step of a run (such as the base class) leaves the run exactly as it is without it. Whatever the flat does, the mass of the elements plus the mass booked as off the map stays the same.", "quantifier": "every run on every kind of map with every list of movers and refloating draws", "why_tests_cant": "refinement over whole runs with several maps", "anchors": ["py_gnome/gnome/maps/tideflat_map.py:TideflatMap", "py_gnome/gnome/maps/tideflat_map.py:TideflatBase", "py_gnome/gnome/model.py:Model.move_elements"]}
{"id": "C113", "title": "A query on spill data returns the elements that meet its condition", "statement": "`Model.get_spill_data` returns, for each of the properties asked for, the values of exactly those elements that meet the written condition (comparisons of properties with numbers joined by && and ||), in their order.", "quantifier": "every condition, list of properties and contents of the data arrays", "why_tests_cant": "a language of conditions over arbitrary data; tests try a few texts", "anchors": ["py_gnome/gnome/model.py:Model.get_spill_data"]}
{"id": "C114", "title": "A burn or skim takes from the elements what it books", "statement": "When a response option of the ROC (in-situ burn, skimming system) books an amount as boomed or skimmed, the elements have lost exactly this amount: the planned mass, or all there is if it is less, taken as the same fraction of every component of every floating element; nothing else changes and the data arrays stay consistent.", "quantifier": "every container, division into fates, planned amount and list of arrays", "why_tests_cant": "depends on whether the view of the floating elements is the container itself or a copy; tests use spills that float as a whole", "anchors": ["py_gnome/gnome/weatherers/roc.py:Response._remove_mass_simple", "py_gnome/gnome/weatherers/roc.py:Burn.weather_elements", "py_gnome/gnome/weatherers/roc.py:Skim.weather_elements", "py_gnome/gnome/spill_container.py:FateDataView"]}
{"id": "C115", "title": "The density after a step is that of what is left", "statement": "After every step the density of each floating element is that of the mixture of the oil that is left with the water in it, and never exceeds that of the water.", "quantifier": "every container, division into fates, composition and water content", "why_tests_cant": "the write-back goes through views that depend on the fates of all elements; tests look at uniform spills", "anchors": ["py_gnome/gnome/ops/density.py:recalc_density", "py_gnome/gnome/spill_container.py:SpillContainerData.update_from_fatedataview"]}
{"id": "C116", "title": "Dispersing takes the wanted mass or all there is", "statement": "The response option Disperse removes from every element it picked the wanted mass, or all the element has, marks emptied elements as dispersed, leaves the others alone, and changes the accounts (chemically dispersed, of the system, floating) by exactly what the elements lost.", "quantifier": "every list of elements and wanted masses", "why_tests_cant": "arbitrary masses and amounts, with clipping at both ends", "anchors": ["py_gnome/gnome/weatherers/roc.py:Disperse.weather_elements", "py_gnome/gnome/weatherers/roc.py:Response._remove_mass_indices"]}
{"id": "C117", "title": "The plan of a burn uses up the time step", "statement": "In every time step of any length, planning an in-situ burn (collect, tow, burn, clean) comes to an end without an error; no activity takes negative time; together they take no more than the step, and exactly the step while the operation is scheduled; what still fits in the boom stays between nothing and its capacity.", "quantifier": "every setting of the burn, sequence of step lengths, slick thicknesses and water contents, and every state reached", "why_tests_cant": "a loop over a state machine whose number of rounds depends on the values; tests look at a few steps", "anchors": ["py_gnome/gnome/weatherers/roc.py:Burn.prepare_for_model_step", "py_gnome/gnome/weatherers/roc.py:Burn._collect", "py_gnome/gnome/weatherers/roc.py:Burn._transit", "py_gnome/gnome/weatherers/roc.py:Burn._burn", "py_gnome/gnome/weatherers/roc.py:Burn._clean"]}
{"id": "C118", "title": "What is in the boom is what was collected and not burned", "statement": "In every step the oil in the boom changes by what the step reports as collected less what it reports as burned.", "quantifier": "every reachable state, step length and slick", "why_tests_cant": "several cycles may fall in one step", "anchors": ["py_gnome/gnome/weatherers/roc.py:Burn._collect", "py_gnome/gnome/weatherers/roc.py:Burn._burn"]}
{"id": "C119", "title": "The accounts of the burns add up", "statement": "After any history of burns: the mass in the booms is not negative; boomed and burned mass together are what was taken from the elements; the accounts of the single burns add up to the totals; the mass burned never falls.", "quantifier": "every history of steps of any number of burns, planned and real amounts", "why_tests_cant": "a history property over interleaved systems", "anchors": ["py_gnome/gnome/weatherers/roc.py:Burn.weather_elements"]}
{"id": "C120", "title": "The rates of a skimming system are consistent", "statement": "Whatever the slick, the pump moves no more than its capacity, the fluid is emulsion and water in the proportion of the recovery efficiency, the water is kept or decanted, no more is decanted than the decanting pump moves, and emulsion and kept water are what fills the tank.", "quantifier": "every setting and slick", "why_tests_cant": "several capacity limits that interact", "anchors": ["py_gnome/gnome/weatherers/roc.py:Skim._collect"]}
{"id": "C121", "title": "A step of a skimming system uses up the time and keeps its accounts", "statement": "In every step of any length, planning a skimming system (skim, travel, unload) comes to an end; no activity takes negative time and together they take the step while the operation is scheduled; the room in the tank stays between nothing and its size; the amounts of the step add up, and no more is collected than fits in the tank.", "quantifier": "every setting, sequence of steps and reachable state", "why_tests_cant": "a loop over a state machine whose number of rounds depends on the values", "anchors": ["py_gnome/gnome/weatherers/roc.py:Skim.prepare_for_model_step", "py_gnome/gnome/weatherers/roc.py:Skim._collect", "py_gnome/gnome/weatherers/roc.py:Skim._transit", "py_gnome/gnome/weatherers/roc.py:Skim._offload"]}
{"id": "C122", "title": "The schedule of an operation is answered correctly", "statement": "For a schedule of intervals one after the other: the current interval is the one the time is in, the next interval is the first that begins after the time, the time to the next change is that to the end of the current or the begin of the next interval, and the operation is active in the steps that begin in an interval.", "quantifier": "every schedule and time", "why_tests_cant": "boundaries of intervals, gaps and ends", "anchors": ["py_gnome/gnome/weatherers/roc.py:Response.index_of", "py_gnome/gnome/weatherers/roc.py:Response.next_interval_index", "py_gnome/gnome/weatherers/roc.py:Response.time_to_next_interval", "py_gnome/gnome/weatherers/roc.py:Response._is_active"]}
{"id": "C123", "title": "A second run of the model makes the same plans", "statement": "When the model is rewound and run again with the same inputs, response options make the same plans as in the first run.", "quantifier": "every state that a first run can end in and every series of steps", "why_tests_cant": "state that survives the rewind matters only for some end states", "anchors": ["py_gnome/gnome/weatherers/roc.py:Burn.prepare_for_model_run", "py_gnome/gnome/weatherers/roc.py:Skim.prepare_for_model_run"]}
{"id": "C124", "title": "The density of an oil follows its measurements", "statement": "density_at_temp of an oil returns the measured density at the temperature of every measurement of fresh oil; the result depends on these measurements, the api and the pour point only, not on their order nor on measurements of weathered oil; if the measurements do not rise with the temperature, neither does the density, it is positive and lies between the measurements around it; below all data and the pour point it stays the same, and without data it is an error.", "quantifier": "every oil with any number of measurements in any order, every temperature", "why_tests_cant": "any number of measurements, in any order, and every temperature between, below and above them", "anchors": ["py_gnome/gnome/spills/gnome_oil.py:GnomeOil.density_at_temp", "py_gnome/gnome/spills/gnome_oil.py:GnomeOil.get_densities", "py_gnome/gnome/spills/gnome_oil.py:GnomeOil.bounding_temperatures", "py_gnome/gnome/spills/gnome_oil.py:GnomeOil._vol_expansion_coeff", "py_gnome/gnome/spills/gnome_oil.py:GnomeOil._get_reference_densities"]}
{"id": "C125", "title": "The density of an oil is a continuous function of temperature", "statement": "A small change of the temperature makes a small change of density_at_temp: between two neighbouring measurements no more than the straight line between them gives, and no jump at a measurement.", "quantifier": "every oil and pair of temperatures", "why_tests_cant": "a jump lies at single points, which a test of values at other points does not see", "anchors": ["py_gnome/gnome/spills/gnome_oil.py:GnomeOil.density_at_temp", "py_gnome/gnome/spills/gnome_oil.py:vol_expansion_coeff"]}
{"id": "C126", "title": "New elements get the properties of their substance in the water of the model", "statement": "Releasing elements of an oil gives each new element components in the mass fractions of the oil that add up to its mass, a fate that goes by its depth and status, and the viscosity and density of the oil at the temperature of the water of the model, the density at most that of the water; elements released before are not changed.", "quantifier": "every oil, environment, number of old and new elements", "why_tests_cant": "arbitrary elements, oils and waters; which water is used depends on three sources", "anchors": ["py_gnome/gnome/spills/gnome_oil.py:GnomeOil.initialize_elements", "py_gnome/gnome/spills/substance.py:Substance.initialize_elements", "py_gnome/gnome/spills/substance.py:Substance._pick_water", "py_gnome/gnome/spills/substance.py:NonWeatheringSubstance.initialize_elements", "py_gnome/gnome/ops/density.py:init_density", "py_gnome/gnome/ops/viscosity.py:init_viscosity"]}
{"id": "C127", "title": "The density of floating oil after a step", "statement": "At the end of a step the density of floating oil is the mean of oil and water by water content and at most that of the water; oil in the proportions of the fresh oil has the density of the oil at the temperature of the water; losing components that are lighter than the mean does not make it lighter; the average over the spill is a number.", "quantifier": "every oil, water, list of elements and composition", "why_tests_cant": "arbitrary compositions and losses", "anchors": ["py_gnome/gnome/ops/density.py:recalc_density", "py_gnome/gnome/ops/density.py:_get_k_rho_weathering_dens_update", "py_gnome/gnome/ops/aggregated_data.py:aggregate"]}
{"id": "C128", "title": "The mass balance counts every release once and averages by mass", "statement": "avg_density and avg_viscosity are the means weighted by mass of the elements there are, so between the smallest and the largest value; floating and non_weathering are the masses of the elements they name; after any sequence of releases, losses and removals amount_released is what all released elements weighed when released.", "quantifier": "every list of elements and every history of releases and other changes", "why_tests_cant": "histories of any length", "anchors": ["py_gnome/gnome/ops/aggregated_data.py:aggregate", "py_gnome/gnome/model.py:Model.release_elements", "py_gnome/gnome/model.py:Model.step_is_done"]}
{"id": "C129", "title": "The viscosity of an oil follows its measurements", "statement": "kvis_at_temp of an oil is positive, does not rise with the temperature if the measurements do not, passes through one measurement or two at different temperatures, does not depend on earlier calls, and is an error without data.", "quantifier": "every oil with any number of measurements, every temperature and least squares solver", "why_tests_cant": "any number of measurements and every temperature", "anchors": ["py_gnome/gnome/spills/gnome_oil.py:GnomeOil.kvis_at_temp", "py_gnome/gnome/spills/gnome_oil.py:GnomeOil.determine_visc_constants"]}
{"id": "C130", "title": "Weathering makes oil more viscous", "statement": "After a step an element is at least as viscous as its oil, and that at least as the fresh oil; more evaporation or more water never makes it less viscous; fresh oil without water has the viscosity of the oil.", "quantifier": "every viscosity, fraction evaporated and water content", "why_tests_cant": "real functions over a continuum", "anchors": ["py_gnome/gnome/ops/viscosity.py:recalc_viscosity", "py_gnome/gnome/ops/viscosity.py:_get_kv1_weathering_visc_update"]}
{"id": "C131", "title": "The vapour pressure of a component is that of the atmosphere at its boiling point", "statement": "vapor_pressure of an oil gives for each component the pressure of the atmosphere at its boiling point, less below it, rising with the temperature; the cache of the method never changes what a call returns.", "quantifier": "every boiling point and temperature, every sequence of calls for any oils", "why_tests_cant": "real functions over a continuum; sequences of calls that share a cache", "anchors": ["py_gnome/gnome/spills/gnome_oil.py:GnomeOil.vapor_pressure"]}
{"id": "C132", "title": "Objects without wind, water or other references get those of the model", "statement": "When a run starts, each object in the model that asks for a reference and has none gets the first object offering it in the environment, the map, the movers, the weatherers and the outputters, in this order; references the user set, objects that do not ask and everything else stay as they were; a second start changes nothing as long as the environment does not; a reference the model chose follows the environment when that changes.", "quantifier": "every model, any number of objects in each collection, spills nested to any depth", "why_tests_cant": "arbitrary combinations of objects, references and repeated runs", "anchors": ["py_gnome/gnome/model.py:Model._attach_default_refs", "py_gnome/gnome/gnomeobject.py:GnomeId._attach_default_refs", "py_gnome/gnome/gnomeobject.py:GnomeId.gather_ref_as", "py_gnome/gnome/spills/spill.py:Spill._attach_default_refs", "py_gnome/gnome/spills/substance.py:Substance._attach_default_refs", "py_gnome/gnome/model.py:Model.set_make_default_refs"]}
{"id": "C133", "title": "Spreading is on exactly when the area of the slick is needed", "statement": "When a run starts and a weatherer that is on uses the area, one spreading and one Langmuir weatherer are on, added if there is none; if none uses it nothing is changed; other weatherers are left alone, a weatherer the user switched off stays off, and a second run uses the same ones.", "quantifier": "every list of weatherers with any switches", "why_tests_cant": "any number of weatherers of each kind in any order", "anchors": ["py_gnome/gnome/model.py:Model.setup_model_run"]}
{"id": "C134", "title": "Finding objects in the environment and adding to it", "statement": "find_by_attr returns the first object (or all of them) whose attribute is or contains the value, None if there is none; the water passed to releases is the one other objects get; add_env keeps what is there and adds every item once; with quash every item takes the place of the first of its class.", "quantifier": "every environment and list of items", "why_tests_cant": "any number of objects with any attributes", "anchors": ["py_gnome/gnome/model.py:Model.find_by_attr", "py_gnome/gnome/model.py:Model.compile_env", "py_gnome/gnome/model.py:Model.add_env"]}
{"id": "C135", "title": "A run starts only if every object has what it needs, and always if it has", "statement": "A run starts if and only if every object that is switched on has the wind, water and waves it refers to.", "quantifier": "every model", "why_tests_cant": "arbitrary combinations of switches, references and collections, with the objects the start itself adds", "anchors": ["py_gnome/gnome/model.py:Model.validate", "py_gnome/gnome/model.py:Model._validate_env_coll", "py_gnome/gnome/model.py:Model.step", "py_gnome/gnome/gnomeobject.py:GnomeId.validate_refs"]}
{"id": "C136", "title": "check_inputs refuses impossible runs and warns about doubtful ones", "statement": "check_inputs raises if and only if the run is impossible (backwards with continuous releases or weathering, time step and duration of different signs, sinking oil); otherwise it says valid if and only if all objects are and no spill that is on is released before the start; it warns exactly about spills off the map, on land or above the surface, about no spills, none released in time, and movers away from the map.", "quantifier": "every model, list of spills and movers", "why_tests_cant": "every combination of times, positions and switches", "anchors": ["py_gnome/gnome/model.py:Model.check_inputs"]}
{"id": "C137", "title": "Sending an object back what it shows changes nothing", "statement": "If update_from_dict is given, for any object, any part of what the object is (attributes with their values, the objects in them by id with texts that say of them what is so, lists and collections in the order they are in), then it succeeds, returns False, and no object is changed or made.", "quantifier": "every object graph without circles, every schema, every part of the description to any depth", "why_tests_cant": "any nesting of shared objects, lists and collections", "anchors": ["py_gnome/gnome/gnomeobject.py:GnomeId.update_from_dict", "py_gnome/gnome/gnomeobject.py:GnomeId._attr_changed", "py_gnome/gnome/persist/base_schema.py:ObjTypeSchema.register_refs", "py_gnome/gnome/persist/base_schema.py:ObjTypeSchema.process_subnode"]}
{"id": "C138", "title": "An update touches only the objects it names", "statement": "After update_from_dict, whether it succeeded or raised, every object other than the one updated and those inside it that the text names is exactly what it was, every object keeps its class, and attributes that are not marked as updatable are as before in all of them.", "quantifier": "every object graph, schema and text, also malformed ones", "why_tests_cant": "every text, at every depth, and every point of failure", "anchors": ["py_gnome/gnome/gnomeobject.py:GnomeId.update_from_dict", "py_gnome/gnome/persist/base_schema.py:ObjTypeSchema.process_subnode", "py_gnome/gnome/persist/base_schema.py:ObjType._deser", "py_gnome/gnome/persist/base_schema.py:ObjType.deserialize"]}
{"id": "C139", "title": "An update writes what was sent", "statement": "After update_from_dict succeeded, the object and every object inside it that the text has fields for have in each updatable attribute that was sent the value sent: plain values as such, for an object the one with the id if it is inside the updated object and a new one otherwise, lists in the order sent, collections without repetitions; the same id stands for the same object wherever it occurs in the text; attributes that were not sent are unchanged; a new object has what was sent for it and otherwise the defaults of its class.", "quantifier": "every object graph without circles, schema and text", "why_tests_cant": "any nesting and sharing of known and new objects", "anchors": ["py_gnome/gnome/gnomeobject.py:GnomeId.update_from_dict", "py_gnome/gnome/persist/base_schema.py:ObjTypeSchema.process_subnode", "py_gnome/gnome/persist/base_schema.py:ObjType._deser", "py_gnome/gnome/persist/base_schema.py:ObjType.deserialize", "py_gnome/gnome/gnomeobject.py:GnomeId.new_from_dict"]}
{"id": "C140", "title": "update_from_dict returns True exactly when it changed the object", "statement": "The returned flag is True if and only if some attribute of the object is different from before.", "quantifier": "every object graph, schema and text", "why_tests_cant": "every combination of attributes sent", "anchors": ["py_gnome/gnome/gnomeobject.py:GnomeId.update_from_dict", "py_gnome/gnome/gnomeobject.py:GnomeId._attr_changed"]}
{"id": "C141", "title": "An update that fails leaves the object as it was", "statement": "If update_from_dict raises, no attribute of the object is changed.", "quantifier": "every object graph, schema and text that is refused at any point", "why_tests_cant": "every point of failure", "anchors": ["py_gnome/gnome/gnomeobject.py:GnomeId.update_from_dict", "py_gnome/gnome/persist/base_schema.py:ObjTypeSchema.process_subnode"]}
{"id": "C142", "title": "== says whether all that is saved of two objects matches", "statement": "a == b is True if and only if a and b are of the same class and every attribute of the class's schema that takes part in comparisons (all but the id and those marked otherwise) matches: arrays of the same size and floats within the tolerance, all else equal in the sense of ==. Comparing two objects of a class never raises.", "quantifier": "all pairs of objects with attributes nested to any depth, all schemas and tolerances", "why_tests_cant": "every nesting of values, lists, collections and objects, and every pair of kinds of value in an attribute", "anchors": ["py_gnome/gnome/gnomeobject.py:GnomeId.__eq__", "py_gnome/gnome/gnomeobject.py:GnomeId._diff", "py_gnome/gnome/gnomeobject.py:GnomeId._check_type", "py_gnome/gnome/utilities/orderedcollection.py:OrderedCollection.__eq__"]}
{"id": "C143", "title": "A faithful copy of an object is equal to it", "statement": "An object is equal to itself and to every object of its class with the same values in the attributes that are compared, whatever the id, the name of the class instance and the other attributes are.", "quantifier": "all objects, with attributes nested to any depth, including infinite and missing numbers", "why_tests_cant": "every nesting and every value", "anchors": ["py_gnome/gnome/gnomeobject.py:GnomeId.__eq__", "py_gnome/gnome/gnomeobject.py:GnomeId._diff"]}
{"id": "C144", "title": "Equality of objects is symmetric and transitive", "statement": "If a == b then b == a; if a == b and b == c then a == c.", "quantifier": "all objects and tolerances", "why_tests_cant": "all triples of objects; the tolerance is relative to one side", "anchors": ["py_gnome/gnome/gnomeobject.py:GnomeId.__eq__", "py_gnome/gnome/gnomeobject.py:GnomeId._diff", "py_gnome/gnome/gnomeobject.py:GnomeId.RTOL", "py_gnome/gnome/gnomeobject.py:GnomeId.ATOL"]}
{"id": "C145", "title": "The list of differences is exact", "statement": "_diff of two objects is empty if and only if they are equal; otherwise it lists exactly the compared attributes that do not match, each once, and with fail_early just the first of them; for objects of different classes it says so.", "quantifier": "all pairs of objects, all schemas", "why_tests_cant": "every combination of differing attributes", "anchors": ["py_gnome/gnome/gnomeobject.py:GnomeId._diff", "py_gnome/gnome/gnomeobject.py:GnomeId._check_type"]}
{"id": "C146", "title": "The NetCDF file gives back every step that was written", "statement": "After a run with a NetCDF outputter, NetCDFOutput.read_data with the index of a written step returns that step: its time, the positions, every array that was written and asked for and no other array, and the mass balance, from the forecast file and, with uncertainty, from the uncertain file; writing never fails.", "quantifier": "all runs: any number of steps, any numbers of elements (none, growing, shrinking), any arrays and mass balances, with and without uncertainty, any earlier use of the outputter", "why_tests_cant": "the place of a step in the file depends on the whole history of both sets of elements", "anchors": ["py_gnome/gnome/outputters/netcdf.py:NetCDFOutput.prepare_for_model_run", "py_gnome/gnome/outputters/netcdf.py:NetCDFOutput.write_output", "py_gnome/gnome/outputters/netcdf.py:NetCDFOutput.read_data"]}
{"id": "C147", "title": "Reading the NetCDF file at a time gives the nearest step", "statement": "NetCDFOutput.read_data(file, time=t) returns what read_data returns for the index of the written step whose time is nearest to t, the first of them if there are two; a written time gives its own step.", "quantifier": "all files of runs, forward and backward in time, all times t before, between and after the steps", "why_tests_cant": "all lists of times and all times t", "anchors": ["py_gnome/gnome/outputters/netcdf.py:NetCDFOutput.read_data"]}
{"id": "C148", "title": "Indices into the NetCDF file", "statement": "read_data with a negative index -i returns the i-th step from the end; an index beyond the steps in either direction raises IndexError; without time and index a file with one step is read and one with more raises ValueError.", "quantifier": "all files and all integers", "why_tests_cant": "every number of steps and every integer index", "anchors": ["py_gnome/gnome/outputters/netcdf.py:NetCDFOutput.read_data"]}
{"id": "C149", "title": "The arrays in the NetCDF file are those asked for by which_data", "statement": "With which_data 'standard' the file has the standard arrays that the elements have, with 'all' all their arrays, with 'most' all but those usually skipped; in every run of the outputter, whatever the runs before; reading 'most' gives those arrays.", "quantifier": "all sets of arrays of the elements, all settings, all sequences of runs with changing settings", "why_tests_cant": "the set of arrays is kept by the outputter between runs", "anchors": ["py_gnome/gnome/outputters/netcdf.py:NetCDFOutput._update_arrays_to_output", "py_gnome/gnome/outputters/netcdf.py:NetCDFOutput.which_data", "py_gnome/gnome/outputters/netcdf.py:NetCDFOutput.prepare_for_model_run", "py_gnome/gnome/outputters/netcdf.py:NetCDFOutput.read_data"]}
{"id": "C150", "title": "Quantities of the water keep their meaning in every unit", "statement": "After any calls of Water.set, get(name, unit) returns the quantity last stored for name, expressed in unit, and raises for an invalid unit; a failing set changes nothing; storing a quantity in another unit changes no reading; assigning units either takes all of them or raises and changes nothing; the density is that of the salinity and temperature, in every unit.", "quantifier": "all sequences of set calls with valid and invalid units and names, all numbers and linear units", "why_tests_cant": "all values, units and call histories", "anchors": ["py_gnome/gnome/environment/water.py:Water.get", "py_gnome/gnome/environment/water.py:Water.set", "py_gnome/gnome/environment/water.py:Water.units", "py_gnome/gnome/environment/water.py:Water.density", "py_gnome/gnome/environment/water.py:Water.__init__", "py_gnome/gnome/environment/water.py:make_water_property"]}
{"id": "C151", "title": "Wave heights are bounded and grow with wind and fetch", "statement": "The wave height computed from the wind is between 0 and 30 m, does not fall when the wind gets stronger, does not fall when the fetch gets longer, and is highest on the open sea.", "quantifier": "all wind speeds and fetches that are not negative", "why_tests_cant": "all real winds and fetches, with the thresholds of the formulas anywhere between", "anchors": ["py_gnome/gnome/utilities/weathering/adios2.py:Adios2.wave_height", "py_gnome/gnome/environment/waves.py:Waves.get_value"]}
{"id": "C152", "title": "The fraction of white caps", "statement": "The fraction of white caps is between 0 and 1, does not fall when the wind gets stronger, does not rise with salinity, and has no jumps; the decay constant is 2.54 s in fresh water and 3.85 s at 35 psu.", "quantifier": "all wind speeds and salinities that are not negative", "why_tests_cant": "all real numbers, both branches of the formula", "anchors": ["py_gnome/gnome/utilities/weathering/lehr_simecek.py:LehrSimecek.whitecap_fraction", "py_gnome/gnome/utilities/weathering/monahan.py:Monahan.whitecap_decay_constant"]}
{"id": "C153", "title": "Given wave heights and their wind", "statement": "The wind computed from the height of the waves that a wind raises on the open sea is that wind; with given waves the results do not depend on the wind and the fetch; giving the waves of the wind instead of the wind gives the same height, energy and fraction of white caps; the wind for emulsification is the larger of the wind and that of the waves.", "quantifier": "all wind speeds that are not negative, below the limit of 30 m waves; all heights, salinities and densities", "why_tests_cant": "inverse of a formula with powers and a threshold, for all real numbers", "anchors": ["py_gnome/gnome/utilities/weathering/adios2.py:Adios2.wave_height", "py_gnome/gnome/utilities/weathering/adios2.py:Adios2.wind_speed_from_height", "py_gnome/gnome/environment/waves.py:Waves.get_value", "py_gnome/gnome/environment/waves.py:Waves.get_emulsification_wind", "py_gnome/gnome/environment/waves.py:Waves.get_pseudo_wind"]}
{"id": "C154", "title": "The wave period is that of the wind stress", "statement": "The mean wave period on the open sea is 0.83 times the wind stress factor of the waves, grows with the wind and is 0 without wind; for given waves it grows with their height.", "quantifier": "all wind speeds and wave heights that are not negative", "why_tests_cant": "all real winds and heights", "anchors": ["py_gnome/gnome/utilities/weathering/adios2.py:Adios2.mean_wave_period", "py_gnome/gnome/environment/waves.py:Waves.mean_wave_period"]}
{"id": "C155", "title": "A gridcur file that is written gives back what was written", "statement": "After write_gridcur, read_file returns the same kind of data, units, times, longitudes, latitudes and values, the values to six decimals, for grids of nodes and of cells.", "quantifier": "all sizes of grids, all numbers of times, all values including nan, all units and coordinates", "why_tests_cant": "every size of grid and number of times", "anchors": ["py_gnome/gnome/environment/gridcur.py:write_gridcur", "py_gnome/gnome/environment/gridcur.py:read_file", "py_gnome/gnome/environment/gridcur.py:make_grid_arrays"]}
{"id": "C156", "title": "What a gridcur file says is what is read", "statement": "read_file passes over what stands before the header; it returns for every time, row and column the value of the last line for them, and 0 where there is no line; the grid has the coordinates that the header gives, with rows as longitudes; a line outside of the grid, or any other fault, raises GridCurReadError.", "quantifier": "all files of the format: any lines before the header, any order of the keys, any times and lines in any order, any sizes", "why_tests_cant": "all texts of the format", "anchors": ["py_gnome/gnome/environment/gridcur.py:read_file", "py_gnome/gnome/environment/gridcur.py:make_grid_arrays", "py_gnome/gnome/environment/gridcur.py:GridCurReadError"]}
{"id": "C157", "title": "A current from a gridcur file has its contents", "statement": "from_gridcur and init_from_gridcur give a current with the times, grid and values of the file and with the setting for extrapolation that was asked for; files of cells raise NotImplementedError.", "quantifier": "all files of the format, both settings", "why_tests_cant": "all sizes and contents of files", "anchors": ["py_gnome/gnome/environment/gridcur.py:from_gridcur", "py_gnome/gnome/environment/gridcur.py:init_from_gridcur"]}
{"id": "C158", "title": "A binary output that is zipped holds the whole run", "statement": "After a run, or after a run that an error ends, the archive of a BinaryOutput with zip_output has exactly the files of the steps that were to be written, numbered from 0 without gaps, the forecast before the uncertain one, and no loose files of the outputter are left.", "quantifier": "all schedules, certain and uncertain runs, all lengths, errors at any step, any files on disk before", "why_tests_cant": "all schedules and all steps at which a run can fail", "anchors": ["py_gnome/gnome/outputters/binary.py:BinaryOutput", "py_gnome/gnome/model.py:Model.step", "py_gnome/gnome/model.py:Model.post_model_run"]}
{"id": "C159", "title": "Binary output that is not zipped stays on disk and touches nothing else", "statement": "After a run a BinaryOutput without zip_output leaves exactly the files of the steps that were to be written, numbered from 0; it can be used for another run and does not delete files of others.", "quantifier": "all schedules, runs one after another, any files on disk before", "why_tests_cant": "all histories of runs in a directory", "anchors": ["py_gnome/gnome/outputters/binary.py:BinaryOutput.write_output", "py_gnome/gnome/outputters/binary.py:BinaryOutput.clean_output_files"]}
{"id": "C160", "title": "A binary file gives back time, positions, ages and beaching", "statement": "The header of a binary file has the date, the number of elements and the hours since the start of the leap cycle (less than four years), and each record gives back position, age and whether the element is on land.", "quantifier": "all dates and all elements", "why_tests_cant": "all dates and all elements", "anchors": ["py_gnome/gnome/outputters/binary.py:BinaryOutput.output_to_file"]}
{"id": "C161", "title": "The oil budget table has the rows it should", "statement": "The table has one row for the first step, for the last and for each step at which an output interval ends, in order, with the time, the hours since the start to the minute and the amounts of the forecast, blank where there is none; an outputter made with on=False writes none.", "quantifier": "all intervals, time steps, lengths of runs and mass balances", "why_tests_cant": "all intervals and lengths of runs", "anchors": ["py_gnome/gnome/outputters/oil_budget.py:OilBudgetOutput", "py_gnome/gnome/outputters/weathering.py:BaseMassBalanceOutputter"]}
{"id": "C162", "title": "GeoJSON files hold the elements of the forecast", "statement": "With an output directory there is a file for each step that is written, with the forecast elements, rounded if round_data is set; the returned collections hold all elements in order.", "quantifier": "all runs, certain and uncertain, all elements and numbers of digits", "why_tests_cant": "all runs and all elements", "anchors": ["py_gnome/gnome/outputters/geo_json.py:TrajectoryGeoJsonOutput"]}
{"id": "C163", "title": "An outputter that is off does nothing", "statement": "With on=False an outputter writes nothing in a run and does not disturb it; with on=True it writes the steps of its schedule.", "quantifier": "all kinds of outputters, all schedules, runs and ways to add the outputter to the model", "why_tests_cant": "all schedules and states of outputters", "anchors": ["py_gnome/gnome/outputters/outputter.py:Outputter.write_output", "py_gnome/gnome/outputters/geo_json.py:TrajectoryGeoJsonOutput.write_output", "py_gnome/gnome/outputters/weathering.py:WeatheringOutput.write_output", "py_gnome/gnome/model.py:Model._callback_add_outputter"]}
{"id": "C164", "title": "A KMZ file shows every written step for the time until the next", "statement": "The KMZ file of a run has one layer for each written step and container, in order, between one header and one footer, also if the run fails; a layer shows the elements in the water and on land, from the time of its step to that of the next that is written.", "quantifier": "all schedules and runs, forward and backward, errors at any step", "why_tests_cant": "all schedules and all steps at which a run can fail", "anchors": ["py_gnome/gnome/outputters/kmz.py:KMZOutput", "py_gnome/gnome/outputters/kmz_templates.py:build_one_timestep"]}
{"id": "C165", "title": "A plume generator gives the elements it was told", "statement": "Iterating over a PlumeGenerator that was told a number of elements gives, at each time step of the release, elements at the points of the plume with flux, each point getting in all its share of the number by flux, rounded down, for every time step and duration.", "quantifier": "all plumes with positive total flux, all durations, time steps and numbers of elements", "why_tests_cant": "all durations and time steps, also those that do not divide one another", "anchors": ["py_gnome/gnome/utilities/plume.py:PlumeGenerator", "py_gnome/gnome/utilities/plume.py:PlumeGenerator.set_le_mass_from_total_le_count"]}
{"id": "C166", "title": "The elements of a plume release do not depend on the steps of the run", "statement": "In a run that begins before a VerticalPlumeRelease, after any steps, the elements that have been released are those of the part of the release that is over, at their places; steps without new elements and releases without an end work too.", "quantifier": "all plumes, release times and sequences of steps", "why_tests_cant": "all sequences of steps", "anchors": ["py_gnome/gnome/spills/release.py:VerticalPlumeRelease", "py_gnome/gnome/utilities/plume.py:PlumeGenerator.elems_in_range"]}
{"id": "C167", "title": "The elements of a plume weigh what has flowed", "statement": "At any time the elements a plume generator has given at a point weigh no more than what has flowed there, and less than the mass of one element is missing; without a number of elements it makes as many per step as there are points, rounded down over the whole release.", "quantifier": "all plumes, times, with or without an end of the release", "why_tests_cant": "all times and fluxes", "anchors": ["py_gnome/gnome/utilities/plume.py:PlumeGenerator", "py_gnome/gnome/utilities/plume.py:Plume"]}
{"id": "C168", "title": "A splot gives one element for each unit", "statement": "release_from_splot_data makes for every line of the file as many elements at the surface at its place as the whole number in its third column, in the order of the lines, and refuses lines of minus one or less.", "quantifier": "all files of three columns", "why_tests_cant": "all files", "anchors": ["py_gnome/gnome/spills/release.py:release_from_splot_data"]}
{"id": "C169", "title": "A surface concentration depends on the oil of its spill alone", "statement": "compute_surface_concentration gives every element the density of the oil of its own spill at its place, times the mass of the element's bin; elements at one place of one spill have the same, and an algorithm that does not exist is refused.", "quantifier": "all elements, spills and ages, any kernel estimate", "why_tests_cant": "all sets of elements and ages", "anchors": ["py_gnome/gnome/utilities/surface_concentration.py:compute_surface_concentration", "py_gnome/gnome/utilities/surface_concentration.py:surface_conc_kde"]}
{"id": "C170", "title": "Contours hold the elements between their cutoffs", "statement": "calculate_contours gives for every spill and every cutoff the hull of the elements of that spill whose value is between the cutoff before and this one, none without such elements, and every element is within one of them.", "quantifier": "all elements, values and lists of cutoffs, any hull", "why_tests_cant": "all values and lists of cutoffs", "anchors": ["py_gnome/gnome/utilities/hull.py:calculate_contours"]}
{"id": "C171", "title": "Hulls hold the elements of their spills", "statement": "calculate_hull gives, separate by spill, one hull for each spill with elements, of all its elements in all containers; together, one hull of all elements; with union_results one shape; nothing without elements.", "quantifier": "all containers and elements, any hull", "why_tests_cant": "all distributions of elements over spills and containers", "anchors": ["py_gnome/gnome/utilities/hull.py:calculate_hull"]}
{"id": "C172", "title": "Sizes that are drawn are within the limits", "statement": "A WeibullDistribution fills an array of any length with sizes that are positive and within its limits, keeps the draws that are within them, and comes to an end.", "quantifier": "all parameters and limits, all sequences of random draws", "why_tests_cant": "all sequences of random draws", "anchors": ["py_gnome/gnome/utilities/distributions.py:WeibullDistribution"]}
{"id": "C173", "title": "The limits of sizes that are accepted leave sizes to draw", "statement": "A WeibullDistribution accepts limits if and only if a positive share of the sizes that are drawn is within them, and refuses all others with an error.", "quantifier": "all positive parameters and all limits", "why_tests_cant": "all parameters and limits", "anchors": ["py_gnome/gnome/utilities/distributions.py:WeibullDistribution", "py_gnome/gnome/utilities/compute_fraction.py:fraction_below_d"]}
{"id": "C174", "title": "Quantiles of wind speeds are the inverse of the fractions below them", "statement": "For Rayleigh distributions quantile and cdf are inverse to each other, cdf grows and pdf is its derivative, and sigma_from_wind is the scale whose mean is the given wind; fractions outside 0 to 1 are refused.", "quantifier": "all scales, speeds and fractions", "why_tests_cant": "all reals", "anchors": ["py_gnome/gnome/utilities/distributions.py:RayleighDistribution"]}
{"id": "C175", "title": "Dissolution takes only aromatics, no more than there is, and books it", "statement": "In a step of Dissolution every component keeps between nothing and what it had, components that are not aromatic keep all, the mass of an element is the sum of its components, and what is lost is added to the mass balance.", "quantifier": "all oils, elements, winds, waves and time steps", "why_tests_cant": "all states of the elements", "anchors": ["py_gnome/gnome/weatherers/dissolution.py:Dissolution.weather_elements", "py_gnome/gnome/weatherers/dissolution.py:Dissolution.dissolve_oil"]}
{"id": "C176", "title": "The times of dissolution fit into the step", "statement": "In every step the time droplets are in the water column and the time the slick is calm are not negative and together not longer than the step, oil heavier than water spends none in the water column, and no step fails.", "quantifier": "all elements, droplet sizes, waves and time steps", "why_tests_cant": "all states of the elements, also without waves", "anchors": ["py_gnome/gnome/weatherers/dissolution.py:Dissolution.water_column_time_fraction", "py_gnome/gnome/weatherers/dissolution.py:Dissolution.calm_between_wave_breaks"]}
{"id": "C177", "title": "What dissolves from an element does not depend on other elements", "statement": "The mass that dissolves from an element is the same whatever other elements there are.", "quantifier": "all sets of elements", "why_tests_cant": "all sets of elements", "anchors": ["py_gnome/gnome/weatherers/dissolution.py:Dissolution.dissolve_oil", "py_gnome/gnome/weatherers/dissolution.py:Dissolution.slick_subsurface_mass_xfer_rate"]}
{"id": "C178", "title": "Weights and thicknesses of a polygon release are what was given", "statement": "A PolygonRelease made of polygons has these polygons and the weights or thicknesses given with them, or assigned later; None removes them; both at once, or a wrong number of them, are refused, and after any assignments a release never has both.", "quantifier": "all lists of polygons, weights and thicknesses, all sequences of assignments", "why_tests_cant": "all sequences of assignments, also refused ones", "anchors": ["py_gnome/gnome/spills/release.py:PolygonRelease", "py_gnome/gnome/spills/release.py:PolygonRelease.gen_fc_from_kwargs"]}
{"id": "C179", "title": "Elements are shared out to the polygons as told", "statement": "In a prepared PolygonRelease the probability of a polygon is its volume of oil by the total volume if there are thicknesses, its weight if there are weights, and its area by the total area if there is neither; within a polygon it is proportional to area; weights that do not sum up to 1 are refused when the release is prepared.", "quantifier": "all polygons and triangulations, weights, thicknesses", "why_tests_cant": "all triangulations and weights", "anchors": ["py_gnome/gnome/spills/release.py:PolygonRelease.get_polys_as_tris", "py_gnome/gnome/spills/release.py:PolygonRelease.compute_distribution", "py_gnome/gnome/utilities/geometry/geo_routines.py:poly_area_weight"]}
{"id": "C180", "title": "A polygon release puts its elements into its polygons", "statement": "Every element of a PolygonRelease is at the surface in a polygon with a positive share; an instantaneous release gives none before its time, all of them at the first step that reaches it, of equal masses that sum up to the mass of the release, and none again.", "quantifier": "all releases, geometries, random draws and steps", "why_tests_cant": "all random draws", "anchors": ["py_gnome/gnome/spills/release.py:PolygonRelease.initialize_elements", "py_gnome/gnome/spills/spill.py:Spill.release_elements"]}
{"id": "C181", "title": "Random points of a triangle lie in it and favour no part", "statement": "random_pt_in_tri gives a point of the triangle for all draws, and each inner point of a triangle comes from exactly two of the draws, (r, s) and (1-r, 1-s).", "quantifier": "all triangles and draws", "why_tests_cant": "all draws", "anchors": ["py_gnome/gnome/utilities/geometry/geo_routines.py:random_pt_in_tri"]}
{"id": "C182", "title": "A grid release with one number has about its square of elements", "statement": "GridRelease with a single number has nearest to that number times the root of width by height columns (in projected lengths) and as many rows as make the number of elements nearest to its square, for every box.", "quantifier": "all boxes and numbers", "why_tests_cant": "all shapes of boxes", "anchors": ["py_gnome/gnome/spills/release.py:GridRelease._compute_resolution"]}
{"id": "C183", "title": "A grid release has one element at each point of its grid", "statement": "A GridRelease of positive resolution gives, at the first step that reaches its time, one element at each of the evenly spaced points from corner to corner of its box, at the surface and with equal masses, and none before or after; other resolutions are refused.", "quantifier": "all boxes, resolutions, masses and steps", "why_tests_cant": "all resolutions", "anchors": ["py_gnome/gnome/spills/release.py:GridRelease", "py_gnome/gnome/spills/release.py:GridRelease._compute_grid_points"]}
{"id": "C184", "title": "A NESDIS file gives each polygon its thickness and time", "statement": "A NESDISRelease of a file has the polygons of the file, with 50 micrometres where the type is thick in any letter case and 5 elsewhere; a polygon is released at the time of its record, or of the last record before it that has one, or the given time.", "quantifier": "all files", "why_tests_cant": "all files, also with missing or unreadable fields", "anchors": ["py_gnome/gnome/spills/release.py:NESDISRelease", "py_gnome/gnome/spills/release.py:NESDISRelease.load_nesdis"]}
{"id": "C185", "title": "Changing the time zone of a release shifts it", "statement": "Assigning a known time zone to a release that has one shifts its time and its end by the difference of the zones, so that its duration stays; without a known zone before or after nothing is shifted.", "quantifier": "all releases and offsets", "why_tests_cant": "all offsets, also negative", "anchors": ["py_gnome/gnome/spills/release.py:Release"]}
{"id": "C186", "title": "Saved arrays are the arrays to eight digits", "statement": "Serializing a numeric array writes, for each number in order, a nearest number of eight significant digits (relative error at most 5.1e-8), and NaN and infinities as they are; rounding to n figures gives a nearest number of n digits, for every n and every number of any magnitude.", "quantifier": "all arrays of doubles, all numbers of figures", "why_tests_cant": "all magnitudes, ties and powers of ten", "anchors": ["py_gnome/gnome/persist/extend_colander.py:NumpyArraySchema", "py_gnome/gnome/utilities/__init__.py:round_sf_array", "py_gnome/gnome/utilities/__init__.py:_round_sf_float"]}
{"id": "C187", "title": "Saving what was loaded changes nothing", "statement": "An array that was written and read back is written again with exactly the same numbers; the order of numbers is kept and different numbers stay different.", "quantifier": "all arrays", "why_tests_cant": "all numbers next to a change of the digit", "anchors": ["py_gnome/gnome/persist/extend_colander.py:NumpyArraySchema", "py_gnome/gnome/utilities/__init__.py:round_sf_array"]}
{"id": "C188", "title": "The copy of an oil is that oil", "statement": "Copying an oil, as for the uncertain spills, gives an oil with the same arrays up to the digits of a save file; the components of an element of it make up the mass of the element; an oil whose component arrays differ in length is refused.", "quantifier": "all oils and element masses", "why_tests_cant": "all fractions", "anchors": ["py_gnome/gnome/spills/gnome_oil.py:GnomeOil.__deepcopy__", "py_gnome/gnome/spills/gnome_oil.py:GnomeOil._set_pc_values", "py_gnome/gnome/spills/gnome_oil.py:GnomeOil.initialize_elements"]}
{"id": "C189", "title": "A time series is accepted exactly if its times ascend", "statement": "Deserializing a time series of a wind, a running average or a manual beaching succeeds exactly if its times are strictly ascending, keeps its values, and gives back what was serialized.", "quantifier": "all lists of times and values", "why_tests_cant": "all orders of times", "anchors": ["py_gnome/gnome/persist/validators.py:no_duplicate_datetime", "py_gnome/gnome/persist/validators.py:ascending_datetime", "py_gnome/gnome/persist/extend_colander.py:DatetimeValue2dArray", "py_gnome/gnome/persist/extend_colander.py:DatetimeValue1dArray"]}
{"id": "C190", "title": "A saved time is the same time", "statement": "A datetime, and each of the two infinite times, is the same when it is read back from what was serialized.", "quantifier": "all datetimes with and without time zone", "why_tests_cant": "all offsets", "anchors": ["py_gnome/gnome/persist/extend_colander.py:LocalDateTime"]}
{"id": "C191", "title": "A saved duration is the same duration", "statement": "A timedelta is the same, to the microsecond, when it is read back.", "quantifier": "all timedeltas", "why_tests_cant": "all numbers of microseconds", "anchors": ["py_gnome/gnome/persist/extend_colander.py:TimeDelta"]}
{"id": "C192", "title": "Saved file names are the file names", "statement": "A file name attribute, none, one or several names, is the same when it is read back; without raw paths, the last part of each name is given.", "quantifier": "all names and lists of names", "why_tests_cant": "all paths", "anchors": ["py_gnome/gnome/persist/extend_colander.py:FilenameSchema"]}
{"id": "C193", "title": "The amount of a spill is the amount it was given", "statement": "An amount that is not negative, set on a spill or given when it is made, is what the spill reports, in its units of mass or volume, and its release weighs that amount in kilograms; it stays so whatever else a script does, until something is done to that spill or its release; a negative amount is refused and changes nothing.", "quantifier": "all scripts of spills, releases and substances, all amounts, units and densities", "why_tests_cant": "all orders of operations and sharing of objects", "anchors": ["py_gnome/gnome/spills/spill.py:Spill.amount", "py_gnome/gnome/spills/spill.py:Spill.__init__", "py_gnome/gnome/spills/spill.py:point_line_spill", "py_gnome/gnome/spills/release.py:Release.release_mass"]}
{"id": "C194", "title": "Changing the units of a spill keeps its mass", "statement": "After the units of a spill are changed its release weighs the same and the amount reported is that mass in the new units; changing back gives the first amount again; units that are neither mass nor volume are refused and change nothing.", "quantifier": "all scripts and units", "why_tests_cant": "all pairs of units", "anchors": ["py_gnome/gnome/spills/spill.py:Spill.units", "py_gnome/gnome/spills/spill.py:Spill.amount", "py_gnome/gnome/spills/spill.py:Spill._check_units"]}
{"id": "C195", "title": "Changing the substance of a spill keeps the amount", "statement": "Giving a spill another substance leaves the amount spilled as it was, in units of mass and of volume.", "quantifier": "all scripts, substances and units", "why_tests_cant": "all densities", "anchors": ["py_gnome/gnome/spills/spill.py:Spill.substance", "py_gnome/gnome/spills/spill.py:Spill.amount"]}
{"id": "C196", "title": "A spill made from a release is of that release", "statement": "A spill made from a release has the number of elements, or the rate, and the mass of that release; made without a release it has the number of elements given.", "quantifier": "all releases and arguments", "why_tests_cant": "all combinations of numbers, rates and masses", "anchors": ["py_gnome/gnome/spills/spill.py:Spill.__init__", "py_gnome/gnome/spills/release.py:Release.num_elements", "py_gnome/gnome/spills/release.py:Release.release_mass"]}
{"id": "C197", "title": "The uncertainty of the amount scales the amount", "statement": "Shifting the amount of a spill up or down multiplies it by one plus or minus two thirds of its uncertainty scale, between a third and five thirds; with a scale outside (0, 1] or another direction nothing changes; down undoes up.", "quantifier": "all scripts, scales and numbers of shifts", "why_tests_cant": "all histories of shifts", "anchors": ["py_gnome/gnome/spills/spill.py:Spill.set_amount_uncertainty"]}
{"id": "C198", "title": "A release has either a number of elements or a rate", "statement": "Of the number of elements and the number per time step of a release exactly one is set, neither negative, at all times.", "quantifier": "all scripts", "why_tests_cant": "all orders of setters", "anchors": ["py_gnome/gnome/spills/release.py:Release.num_elements", "py_gnome/gnome/spills/release.py:Release.num_per_timestep", "py_gnome/gnome/spills/release.py:Release.__init__"]}
{"id": "C199", "title": "A spill has the windage it was made with", "statement": "A spill made by a helper function with a windage range and persistence has them, as long as none of them is set; without them it has those of its substance, and without a substance the defaults; wrong windages are refused.", "quantifier": "all scripts and windages", "why_tests_cant": "all ways of sharing a substance", "anchors": ["py_gnome/gnome/spills/spill.py:_setup_spill", "py_gnome/gnome/spills/spill.py:point_line_spill", "py_gnome/gnome/spills/substance.py:Substance.windage_range", "py_gnome/gnome/spills/substance.py:Substance.windage_persist"]}
{"id": "C200", "title": "What an object of a model refers to is in its environment", "statement": "Whatever movers, weatherers and environment objects a model has, the winds, tides, waves, water and currents they refer to are in the environment of the model; adding an object adds exactly what it reaches through references, once, after what is there.", "quantifier": "all scripts of additions, removals, replacements, merges and changed references, all graphs of references", "why_tests_cant": "all graphs of references and all orders of operations", "anchors": ["py_gnome/gnome/model.py:Model._add_to_environ_collec", "py_gnome/gnome/model.py:Model._register_callbacks", "py_gnome/gnome/model.py:Model.__init__", "py_gnome/gnome/utilities/orderedcollection.py:OrderedCollection.add"]}
{"id": "C201", "title": "Merging a model adds what is new of it", "statement": "After a merge the model has its own objects in their order, then those of the other model it did not have, each once, and keeps its map; merging again, or into itself, changes nothing; its number of time steps is that of its duration and time step.", "quantifier": "all pairs of models and graphs of references", "why_tests_cant": "all overlaps of two models", "anchors": ["py_gnome/gnome/model.py:Model.merge", "py_gnome/gnome/model.py:Model._reset_num_time_steps"]}
{"id": "C202", "title": "An object of a model is found until it is taken", "statement": "An object added to a model is in its collection once and is found by its id until it is removed or replaced; a replaced object leaves its place to the new one; removing what is not there is refused; the first or all objects of a class are found; a named array is found in the certain or the uncertain spills.", "quantifier": "all scripts, all objects", "why_tests_cant": "all orders of operations", "anchors": ["py_gnome/gnome/model.py:Model.contains_object", "py_gnome/gnome/model.py:Model.find_by_class", "py_gnome/gnome/model.py:Model.get_spill_property", "py_gnome/gnome/utilities/orderedcollection.py:OrderedCollection.remove", "py_gnome/gnome/utilities/orderedcollection.py:OrderedCollection.replace"]}
{"id": "C203", "title": "Weathering is added by name", "statement": "The standard set adds evaporation, dispersion and emulsification; a list of names, in upper or lower case, adds a weatherer for each in order; an unknown name is refused; a single name is as good as a list of one.", "quantifier": "all lists of texts, all texts", "why_tests_cant": "all texts", "anchors": ["py_gnome/gnome/model.py:Model.add_weathering", "py_gnome/gnome/weatherers/__init__.py:weatherers_by_name", "py_gnome/gnome/weatherers/__init__.py:standard_weatherering_sets"]}
{"id": "C204", "title": "Loading an old save folder brings it to the newest version", "statement": "Loading a save folder of an older version updates it step by step and leaves the newest version in it; a folder of the newest version is left alone; one whose version cannot be read is refused unchanged; one of a version that is not known yet is refused.", "quantifier": "all folders and versions", "why_tests_cant": "all folders", "anchors": ["py_gnome/gnome/utilities/save_updater.py:update_savefile", "py_gnome/gnome/gnomeobject.py:GnomeObject.load"]}
{"id": "C205", "title": "An update renames classes and changes nothing else", "statement": "From version 2, 3 or 4 the files of a save folder are the same after the update except that the classes are renamed by fixed tables and WeatheringData and the names of their files are gone.", "quantifier": "all readable folders, all class names and contents", "why_tests_cant": "all combinations of files and names", "anchors": ["py_gnome/gnome/utilities/save_updater.py:v2tov3", "py_gnome/gnome/utilities/save_updater.py:v3tov4", "py_gnome/gnome/utilities/save_updater.py:v4tov5"]}
{"id": "C206", "title": "An interrupted update can be done again", "statement": "An update of a save folder that was interrupted at any point can be done again and ends with the folder it would have made.", "quantifier": "all folders, all points of interruption", "why_tests_cant": "all crash points", "anchors": ["py_gnome/gnome/utilities/save_updater.py:update_savefile", "py_gnome/gnome/utilities/save_updater.py:v2tov3", "py_gnome/gnome/utilities/save_updater.py:v3tov4", "py_gnome/gnome/utilities/save_updater.py:v4tov5"]}
{"id": "C207", "title": "The windages of an old save file go to its substances", "statement": "Updating from version 1 gives every substance the windages of its initializer, removes the initializers, replaces oils that cannot be made any more, and leaves everything else.", "quantifier": "all folders of version 1", "why_tests_cant": "all combinations of substances and initializers", "anchors": ["py_gnome/gnome/utilities/save_updater.py:v1tov2"]}
{"id": "C208", "title": "The element type of an old spill becomes its substance", "statement": "Updating from version 0 gives every spill the substance made from its element type, can be done again if interrupted, and leaves an oil that can be made.", "quantifier": "all folders of version 0", "why_tests_cant": "all combinations of spills and element types, all crash points", "anchors": ["py_gnome/gnome/utilities/save_updater.py:v0tov1"]}
{"id": "C209", "title": "One copy of a model for each pair of uncertainties", "statement": "A broadcaster has one copy of the model for each pair of a wind and a spill uncertainty, in order; each copy is given its own uncertainties once, and a pair leads to its copy.", "quantifier": "all lists of uncertainties, all models", "why_tests_cant": "all lists", "anchors": ["py_gnome/gnome/multi_model_broadcast.py:ModelBroadcaster.__init__", "py_gnome/gnome/multi_model_broadcast.py:ModelBroadcaster._set_uncertainty", "py_gnome/gnome/multi_model_broadcast.py:ModelBroadcaster._get_available_ports"]}
{"id": "C210", "title": "A broadcast command is run once by every copy it is for", "statement": "A command to all copies is run once by each and returns their answers in order, in parallel or not; a command to one copy, by number or uncertainties, is run by that copy only; over any script a copy has run what was for it in order; timeouts are as before.", "quantifier": "all scripts of commands, all answers of the copies", "why_tests_cant": "all orders of commands and all answers", "anchors": ["py_gnome/gnome/multi_model_broadcast.py:ModelBroadcaster.cmd", "py_gnome/gnome/multi_model_broadcast.py:ModelConsumer.handle_cmd"]}
{"id": "C211", "title": "A broadcaster that fails", "statement": "If a copy raises, the caller gets its exception; if a copy does not answer in time the broadcaster is stopped or can go on; a stopped broadcaster does nothing; timeouts are restored.", "quantifier": "all scripts, all answers, exceptions and delays of the copies", "why_tests_cant": "all schedules", "anchors": ["py_gnome/gnome/multi_model_broadcast.py:ModelBroadcaster.cmd", "py_gnome/gnome/multi_model_broadcast.py:ModelBroadcaster.handle_child_exception", "py_gnome/gnome/multi_model_broadcast.py:ModelBroadcaster.stop"]}
{"id": "C212", "title": "Environment objects that a file can give", "statement": "All gridded environment objects that a file can give are made from it, those of a list of classes or by default all; no class is made twice, and all share one grid, the one given or that of the file.", "quantifier": "all hierarchies of classes, all lists of them, all files (which classes can be made with which references and grid)", "why_tests_cant": "all hierarchies, lists and files", "anchors": ["py_gnome/gnome/environment/environment.py:env_from_netCDF", "py_gnome/gnome/environment/environment.py:ice_env_from_netCDF", "py_gnome/gnome/environment/environment.py:get_file_analysis", "py_gnome/gnome/environment/environment.py:Environment"]}
{"id": "C213", "title": "Environment objects of a file refer to each other", "statement": "An object that needs another (an ice aware wind an ice concentration) refers to an object of the class it needs from the same file, one that comes earlier in the list; a class that has an object is not made again.", "quantifier": "all hierarchies of classes, all lists of them, all required references, all files", "why_tests_cant": "all hierarchies, lists and files", "anchors": ["py_gnome/gnome/environment/environment.py:env_from_netCDF"]}
{"id": "C214", "title": "Every element is in one contour only, for every value a spill may show", "statement": "In addition to C170: every element of a spill is in exactly one of its contours, for cutoffs in any order, and there are contours for each of the columns that the appearance of a spill may ask for.", "quantifier": "all elements, all lists of cutoffs, all spills and values", "why_tests_cant": "all lists of cutoffs and elements", "anchors": ["py_gnome/gnome/utilities/hull.py:calculate_contours"]}
{"id": "C215", "title": "Hulls of the spills share out the elements", "statement": "In addition to C171: the hulls are around the elements of one spill each, each spill once and in the order they are first seen, and every element is in one of them; joined, they are one hull without a number; without elements there is none.", "quantifier": "all containers of elements, all geometry", "why_tests_cant": "all containers", "anchors": ["py_gnome/gnome/utilities/hull.py:calculate_hull"]}
{"id": "C216", "title": "Cutoffs from the appearance of spills", "statement": "Exactly the spills that show contours have a list of cutoffs, under their position: those of the colour map and the largest number, with the colour and the label at the same place; otherwise it is refused.", "quantifier": "all lists of spills and appearances", "why_tests_cant": "all lists of spills and appearances", "anchors": ["py_gnome/gnome/outputters/json.py:SpillJsonOutput.generate_cutoff_struct", "py_gnome/gnome/outputters/erma_data_package.py:ERMADataPackageOutput.generate_cutoff_struct"]}
{"id": "C217", "title": "JSON output of a step", "statement": "The output of a step has one record for each container with all its elements, certain and uncertain apart, the contours of the certain ones by spill, bounds around the uncertain ones if asked for, and the time; with a directory it is written there.", "quantifier": "all containers, spills and appearances", "why_tests_cant": "all containers and appearances", "anchors": ["py_gnome/gnome/outputters/json.py:SpillJsonOutput.write_output"]}
{"id": "C218", "title": "A BNA file is read as it was written", "statement": "Reading a file of polygons gives each of them in the order of the file with its two names and points: one point is a point, two points or a negative number a line, more points a polygon of at least three points, without the last point if it repeats the first; blank lines before a header do not matter.", "quantifier": "all names without quotes, all numbers and points, all files", "why_tests_cant": "all files", "anchors": ["py_gnome/gnome/utilities/file_tools/haz_files.py:ReadBNA", "py_gnome/gnome/utilities/file_tools/haz_files.py:GetNextBNAPolygon"]}
{"id": "C219", "title": "A BNA file that is not well written is refused", "statement": "A file that ends before the points announced, with a header without names or with a number of zero points, with a point that has not two coordinates, or without a comma before the number, is refused with a ValueError, whatever well written polygons come before; reading raises no other exception and always ends.", "quantifier": "all files", "why_tests_cant": "all files", "anchors": ["py_gnome/gnome/utilities/file_tools/haz_files.py:ReadBNA", "py_gnome/gnome/utilities/file_tools/haz_files.py:GetNextBNAPolygon"]}
{"id": "C220", "title": "Zipped shapefiles hold every element of every written step", "statement": "After a run the zipped output has, whatever was run before, the certain elements of every written step in order, each element once, with its time and, for an offset from universal time, the universal time; with uncertainty also the uncertain elements, and the boundaries that were asked for, each in a shapefile of its own.", "quantifier": "all file names, settings, histories of runs, steps and containers", "why_tests_cant": "all histories and file names", "anchors": ["py_gnome/gnome/outputters/shape.py:ShapeOutput.prepare_for_model_run", "py_gnome/gnome/outputters/shape.py:ShapeOutput.write_output", "py_gnome/gnome/outputters/shape.py:ShapeOutput.post_model_run", "py_gnome/gnome/utilities/shapefile_builder.py:ParticleShapefileBuilder.append", "py_gnome/gnome/utilities/shapefile_builder.py:BoundaryShapefileBuilder.append"]}
{"id": "C221", "title": "Shapefiles that are not zipped are complete", "statement": "Without zip the output is all the files of the shapefile of the certain elements, under the name that was given, and of its boundary if it was asked for; with uncertainty one file with all of them; the file that a step tells of is there after the run.", "quantifier": "all file names, settings, steps and containers", "why_tests_cant": "all settings", "anchors": ["py_gnome/gnome/outputters/shape.py:ShapeOutput.__init__", "py_gnome/gnome/outputters/shape.py:ShapeOutput.post_model_run", "py_gnome/gnome/outputters/shape.py:ShapeOutput.create_bundle", "py_gnome/gnome/utilities/shapefile_builder.py:ShapefileBuilder.write"]}
{"id": "C222", "title": "A tide file is read as what it is", "statement": "A file whose first four lines start with the words of a Shio file makes a Shio tide, another one with seven fields in its fourth line a time series, any other is refused with a ValueError; the tide has the scale factor that is given, or that of the file if none is; the folder of the year data must exist, and Shio is told of it.", "quantifier": "all text files, scale factors and folders", "why_tests_cant": "all files", "anchors": ["py_gnome/gnome/environment/tide.py:Tide._obj_to_create", "py_gnome/gnome/environment/tide.py:Tide.__init__", "py_gnome/gnome/environment/tide.py:Tide.yeardata"]}
{"id": "C223", "title": "A data file from the server is whole", "statement": "A file that is there is used without asking the server; otherwise the file of this name in the subdirectory of the server is fetched, whole, and no other file changes; a server that refuses changes nothing; after a stop at any point asking again gives the whole file.", "quantifier": "all disks, servers, names, and points at which it is stopped", "why_tests_cant": "every crash point", "anchors": ["py_gnome/gnome/utilities/remote_data.py:get_datafile"]}
{"id": "C224", "title": "A running average is of the wind as it is", "statement": "At every step of a run the average in use is that of the values the wind has now over the hours set now, made at the start of the run or at a step of it, and covers the time of the step or was just made for it; without a wind a run is refused.", "quantifier": "all histories of settings, changes of the wind, runs and steps", "why_tests_cant": "all histories", "anchors": ["py_gnome/gnome/environment/running_average.py:RunningAverage.prepare_for_model_run", "py_gnome/gnome/environment/running_average.py:RunningAverage.prepare_for_model_step", "py_gnome/gnome/environment/running_average.py:RunningAverage.__init__"]}
{"id": "C225", "title": "Output kept in memory is that of the run", "statement": "After a run the buffer has one entry for every container of every step that was written, in this order, with its time, masses, positions, ages and status codes, and nothing of an earlier run; a step that is refused leaves nothing in it.", "quantifier": "all runs: steps, containers and arrays", "why_tests_cant": "all runs", "anchors": ["py_gnome/gnome/outputters/memory_outputter.py:MemoryOutputter.write_output", "py_gnome/gnome/outputters/memory_outputter.py:MemoryOutputter.prepare_for_model_run"]}
{"id": "C226", "title": "An appearance tells what the client set", "statement": "After any updates an appearance tells every setting that was ever given to it, with the value given last, and no other; any settings can be updated, alone or with others; its type and id cannot be set.", "quantifier": "all settings, and all histories of updates", "why_tests_cant": "all histories", "anchors": ["py_gnome/gnome/utilities/appearance.py:Appearance.__init__", "py_gnome/gnome/utilities/appearance.py:Appearance.update_from_dict", "py_gnome/gnome/utilities/appearance.py:Appearance.to_dict"]}
