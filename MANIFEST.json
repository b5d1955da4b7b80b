{
 "claims": [
  {
   "property": "C01",
   "status": "proved",
   "theorems": [
    "C01_iteration_is_insertion_order"
   ],
   "note": ""
  },
  {
   "property": "C02",
   "status": "partial",
   "theorems": [
    "C02_len_contains_iter_agree",
    "C02_values_partial",
    "C02_values_refuted"
   ],
   "note": "len, in and iteration agree; values() does not after replacing by an object already present (finding)."
  },
  {
   "property": "C03",
   "status": "proved",
   "theorems": [
    "C03_lookup_agrees_with_iteration"
   ],
   "note": ""
  },
  {
   "property": "C04",
   "status": "partial",
   "theorems": [
    "C04_setitem_refuted",
    "C04_setitem_keyerror_refuted",
    "C04_setitem_negative_refuted",
    "C04_setitem_partial"
   ],
   "note": "False in general because assignment uses the raw slot number; proved for collections from which nothing has been removed."
  },
  {
   "property": "C05",
   "status": "proved",
   "theorems": [
    "C05_callbacks_fire_exactly_once"
   ],
   "note": ""
  },
  {
   "property": "C06",
   "status": "proved",
   "theorems": [
    "C06_steps_in_order",
    "C06_full_run"
   ],
   "note": "What components do inside a step is abstracted to events; the hypothesis is that none fails and the weathering sub-steps exist."
  },
  {
   "property": "C07",
   "status": "proved",
   "theorems": [
    "C07_count_kept",
    "C07_steps_cover_duration",
    "C07_constructed",
    "C07_wrong_sign_refuted"
   ],
   "note": "Time steps and durations must have the sign of the direction; the refuted theorem shows what happens otherwise."
  },
  {
   "property": "C08",
   "status": "partial",
   "theorems": [
    "C08_mirrored_partial",
    "C08_constructed_partial",
    "C08_mirror_refuted"
   ],
   "note": "False for a negative time_step or no time_step given together with run_backwards=True: the number of steps is stale and the run stops after step 0."
  },
  {
   "property": "C09",
   "status": "proved",
   "theorems": [
    "C09_substeps_tile",
    "C09_step_order",
    "C09_substep_count",
    "C09_limits_refuted"
   ],
   "note": "The refuted theorem shows that the bounds of the statement are needed."
  },
  {
   "property": "C10",
   "status": "partial",
   "theorems": [
    "C10_change_rewinds_partial",
    "C10_next_step_is_zero_partial",
    "C10_change_rewinds_refuted"
   ],
   "note": "False for outputters (no callback) and for shortening the duration of a backward run; spills and removal of weatherers do not rewind either."
  },
  {
   "property": "C100",
   "status": "partial",
   "theorems": [
    "C100_assigned",
    "C100_set_wind_data_refuted",
    "C100_units_refuted",
    "C100_components_refuted",
    "C100_refused_refuted"
   ],
   "note": "Proved after assigning `timeseries` (or constructing) with speed and direction. False after set_wind_data in other units than m/s, after changing `units`, for components and after a refused assignment."
  },
  {
   "property": "C101",
   "status": "partial",
   "theorems": [
    "C101_partial",
    "C101_refuted"
   ],
   "note": "Proved for lists and for arrays in m/s. False for arrays in other units: they are converted in place (C101_refuted)."
  },
  {
   "property": "C102",
   "status": "partial",
   "theorems": [
    "C102_shift_partial",
    "C102_unknown",
    "C102_refuted"
   ],
   "note": "Proved for winds whose timeseries attribute shows the wind (C100). Otherwise the speed is converted a second time (C102_refuted)."
  },
  {
   "property": "C103",
   "status": "partial",
   "theorems": [
    "C103_scaled_partial",
    "C103_nothing",
    "C103_small_refuted",
    "C103_half_refuted"
   ],
   "note": "Down: proved. Up: raises exactly if 0.5 - scale < exp(-pi/4); a scale of 0.01 lowers the wind (C103_small_refuted) and 0.5 gives speeds that are not finite (C103_half_refuted)."
  },
  {
   "property": "C104",
   "status": "partial",
   "theorems": [
    "C104_released",
    "C104_in_range_partial",
    "C104_persistent",
    "C104_short_step_refuted",
    "C104_swapped"
   ],
   "note": "Holds after any history in which no step is shorter than a finite persistence. A shorter step widens the interval: with 1-4 % and 900 s, a step of 100 s can give a negative windage (C104_short_step_refuted). Swapped ranges are accepted by the setter and refused at the first release."
  },
  {
   "property": "C105",
   "status": "partial",
   "theorems": [
    "C105_spread_partial",
    "C105_long_persistence_refuted",
    "C105_refused"
   ],
   "note": "The law holds for persistences of 1 to 900 s. Larger ones are accepted and treated as infinite: the windage is never redrawn (C105_long_persistence_refuted)."
  },
  {
   "property": "C106",
   "status": "proved",
   "theorems": [
    "C106_reach",
    "C106_backwards",
    "C106_uncertain",
    "C106_settings",
    "C106_first_step"
   ],
   "note": "In the first step of a run the draws lie in a disc, later in a square; both are covered."
  },
  {
   "property": "C107",
   "status": "partial",
   "theorems": [
    "C107_submerged_partial",
    "C107_horizontal",
    "C107_vertical",
    "C107_stays_at_surface_refuted"
   ],
   "note": "Holds if the mixed layer has positive depth and either its vertical coefficient is not 0 or the element is submerged. Otherwise a floating element can stay at the surface (C107_stays_at_surface_refuted). Where the surface is allowed floating elements are not moved horizontally either (C107_horizontal)."
  },
  {
   "property": "C108",
   "status": "partial",
   "theorems": [
    "C108_layer_partial",
    "C108_long_step_refuted"
   ],
   "note": "Holds if the reach of the step is not larger than the layer (and the layer less than 2500 m deep); otherwise reflection at the surface takes elements out of the layer (C108_long_step_refuted)."
  },
  {
   "property": "C109",
   "status": "partial",
   "theorems": [
    "C109_laws",
    "C109_monotone",
    "C109_continuous",
    "C109_dense_refuted"
   ],
   "note": "Everything about droplets lighter than water holds. A droplet denser than water and larger than 0.2 mm gets the velocity NaN (C109_dense_refuted)."
  },
  {
   "property": "C11",
   "status": "proved",
   "theorems": [
    "C11_active_iff_midpoint",
    "C11_midpoint",
    "C11_adjacent_windows_split",
    "C11_window_must_be_proper"
   ],
   "note": ""
  },
  {
   "property": "C110",
   "status": "partial",
   "theorems": [
    "C110_rise_partial",
    "C110_forwards",
    "C110_backwards_refuted"
   ],
   "note": "Forwards it holds. Backwards the call raises OverflowError, because the time step is declared unsigned (C110_backwards_refuted); so does the three-dimensional random walk."
  },
  {
   "property": "C111",
   "status": "partial",
   "theorems": [
    "C111_run_partial",
    "C111_stays",
    "C111_land_first",
    "C111_simple",
    "C111_falls_dry_refuted"
   ],
   "note": "The flat is looked at as it is when a step begins, also for the place an element comes to at the end of it. With that reading everything holds over whole runs; but an element that comes to the flat in the step in which it falls dry is not stranded and moves on over the dry flat (C111_falls_dry_refuted)."
  },
  {
   "property": "C112",
   "status": "proved",
   "theorems": [
    "C112_transparent",
    "C112_base",
    "C112_mass"
   ],
   "note": "The mass balance is for maps without land and raster maps, as C37."
  },
  {
   "property": "C113",
   "status": "partial",
   "theorems": [
    "C113_partial",
    "C113_whole_part",
    "C113_fraction_refuted",
    "C113_precedence_refuted",
    "C113_other_texts_refuted"
   ],
   "note": "Holds for conditions of groups (comparisons joined with ||) joined with &&, with spaces around operators, on properties that hold whole numbers. Fractions are cut off before comparing (C113_fraction_refuted), || binds more strongly than && (C113_precedence_refuted), other operators silently find nothing, positions and unspaced texts raise errors (C113_other_texts_refuted)."
  },
  {
   "property": "C114",
   "status": "partial",
   "theorems": [
    "C114_take_partial",
    "C114_take_refuted",
    "C114_arrays_refuted"
   ],
   "note": "Holds when every element floats with mass. As soon as one element does not, the options work on copies that are not written back: mass is booked and nothing is removed (C114_take_refuted, for every container). Taking all the oil makes the next weatherer cut its arrays to length 0 and no others (C114_arrays_refuted)."
  },
  {
   "property": "C115",
   "status": "partial",
   "theorems": [
    "C115_density_partial",
    "C115_density_refuted"
   ],
   "note": "Holds when every element floats with mass. As soon as one element does not, recalc_density writes to the view of the floating elements and then copies back the (empty) view of all elements: no density is ever updated again (C115_density_refuted, for every container)."
  },
  {
   "property": "C116",
   "status": "proved",
   "theorems": [
    "C116_disperse"
   ],
   "note": ""
  },
  {
   "property": "C117",
   "status": "partial",
   "theorems": [
    "C117_plan_partial",
    "C117_plan_refuted"
   ],
   "note": "Proved for every state that is reached when the slick always has what was planned. After a shortage the missing mass in kilograms is added to the room in the boom in cubic feet, so that the burn takes negative time (C117_plan_refuted)."
  },
  {
   "property": "C118",
   "status": "partial",
   "theorems": [
    "C118_volumes_partial",
    "C118_volumes_refuted"
   ],
   "note": "Proved for steps of an hour at most (from states without shortage). In longer steps a second cycle replaces what the first collected (C118_volumes_refuted)."
  },
  {
   "property": "C119",
   "status": "proved",
   "theorems": [
    "C119_accounts"
   ],
   "note": ""
  },
  {
   "property": "C12",
   "status": "proved",
   "theorems": [
    "C12_total_order",
    "C12_operators_agree"
   ],
   "note": ""
  },
  {
   "property": "C120",
   "status": "proved",
   "theorems": [
    "C120_rates"
   ],
   "note": ""
  },
  {
   "property": "C121",
   "status": "partial",
   "theorems": [
    "C121_step_partial",
    "C121_fill_refuted"
   ],
   "note": "Time, tank and accounts proved for every reachable state. The fluid booked when the tank becomes full is always 42 times the room there was (C121_fill_refuted): the time to fill it mixes a rate per minute with hours."
  },
  {
   "property": "C122",
   "status": "proved",
   "theorems": [
    "C122_index",
    "C122_next",
    "C122_time_to_next",
    "C122_active",
    "C122_active_refuted"
   ],
   "note": "The last clause needs intervals that begin and end on time steps (C122_active); an interval shorter than half a step never takes place (C122_active_refuted)."
  },
  {
   "property": "C123",
   "status": "partial",
   "theorems": [
    "C123_rerun_partial",
    "C123_rerun_refuted"
   ],
   "note": "Proved when the first run left no burn under way, no burn rate computed and no skimmer on its way or unloading. Otherwise the rest of the old burn is used for the new one, and the skimmer works before it is scheduled (C123_rerun_refuted)."
  },
  {
   "property": "C124",
   "status": "proved",
   "theorems": [
    "C124_measured",
    "C124_data_only",
    "C124_warm",
    "C124_cold"
   ],
   "note": "Proved for oils whose fresh measurements are at different temperatures."
  },
  {
   "property": "C125",
   "status": "partial",
   "theorems": [
    "C125_segment_partial",
    "C125_continuous_refuted"
   ],
   "note": "Between neighbouring measurements the density changes no faster than the straight line. The full property is false: the expansion formula does not meet the upper measurement, so the density jumps there (909 to 900 in the example); the jump is at most the square of the difference over the density."
  },
  {
   "property": "C126",
   "status": "partial",
   "theorems": [
    "C126_new_partial",
    "C126_water_refuted",
    "C126_inert",
    "C126_none_refuted"
   ],
   "note": "All but the density in the water of the model. That part is false: GnomeOil.initialize_elements does not pass the environment to Substance.initialize_elements, so the density is that in the oil's own water or in a new Water() at 300 K (a run gives the oil the first water of the environment only if it has none yet, see C132: an oil with other water keeps it). A call for 0 elements rewrites all elements."
  },
  {
   "property": "C127",
   "status": "partial",
   "theorems": [
    "C127_recalc_partial",
    "C127_heavier",
    "C127_empty_refuted"
   ],
   "note": "Proved for elements with mass when all elements float (see C115 for the rest). False for elements without mass: their density is NaN, and so is then the average of the whole spill."
  },
  {
   "property": "C128",
   "status": "proved",
   "theorems": [
    "C128_average",
    "C128_parts",
    "C128_released",
    "C128_stale_refuted"
   ],
   "note": "The averages are those of the elements while there is mass; C128_stale_refuted shows this condition is needed: with no mass left they keep their old values."
  },
  {
   "property": "C129",
   "status": "partial",
   "theorems": [
    "C129_through",
    "C129_falls_partial",
    "C129_kept",
    "C129_same_temperature_refuted",
    "C129_no_data_refuted",
    "C129_stale_refuted"
   ],
   "note": "The monotonicity needs one measurement or two different temperatures: with two measurements at one temperature the viscosity rises with the temperature. Without data the viscosity is 1 m2/s instead of an error, and measurements changed after the first call are ignored."
  },
  {
   "property": "C13",
   "status": "proved",
   "theorems": [
    "C13_release_count",
    "C13_can_be_prepared",
    "C13_constructed"
   ],
   "note": "Floats idealised as rationals. Instantaneous releases release everything at release_time, continuous ones nothing yet at release_time itself."
  },
  {
   "property": "C130",
   "status": "partial",
   "theorems": [
    "C130_update_partial",
    "C130_water_refuted",
    "C130_container"
   ],
   "note": "Up to a water content of 99 per cent; at 100 per cent the viscosity is NaN."
  },
  {
   "property": "C131",
   "status": "partial",
   "theorems": [
    "C131_boiling_partial",
    "C131_heavy_refuted",
    "C131_cache_partial",
    "C131_stale_refuted"
   ],
   "note": "For temperatures above 0.19 times the boiling point less 18 K, and as long as no boiling points are changed. Both conditions are shown to be needed."
  },
  {
   "property": "C132",
   "status": "partial",
   "theorems": [
    "C132_attached",
    "C132_again",
    "C132_off",
    "C132_stale_refuted"
   ],
   "note": "All but the last clause, which is false: what was attached once stays, so after the water of the environment is exchanged the oils and weatherers still use the old one."
  },
  {
   "property": "C133",
   "status": "partial",
   "theorems": [
    "C133_switched_partial",
    "C133_idle",
    "C133_again",
    "C133_user_refuted",
    "C133_two_refuted"
   ],
   "note": "The last two clauses are false: a spreading or Langmuir weatherer that the user switched off is switched on, and with two spreading weatherers the last one is used, which after sorting may be the other one in the second run. With at most one of each C133_again holds."
  },
  {
   "property": "C134",
   "status": "partial",
   "theorems": [
    "C134_find",
    "C134_water",
    "C134_add",
    "C134_quash_partial",
    "C134_quash_refuted"
   ],
   "note": "With quash, add_env returns after the first item, so only one item is put in."
  },
  {
   "property": "C135",
   "status": "partial",
   "theorems": [
    "C135_validate",
    "C135_begin_partial",
    "C135_waves_refuted",
    "C135_own_refuted"
   ],
   "note": "C135_validate says exactly when validate refuses. A run that starts is complete except for Waves without references that do not take defaults. A complete model is refused when an object that takes defaults has its own water and there is none in the environment."
  },
  {
   "property": "C136",
   "status": "partial",
   "theorems": [
    "C136_refuses",
    "C136_messages",
    "C136_times",
    "C136_signs_refuted"
   ],
   "note": "Exact conditions for errors, validity and every message. A positive time step with a negative duration is not refused."
  },
  {
   "property": "C137",
   "status": "proved",
   "theorems": [
    "C137_send_back"
   ],
   "note": "For any part of the description at every depth, by induction over the text."
  },
  {
   "property": "C138",
   "status": "proved",
   "theorems": [
    "C138_frame"
   ],
   "note": "For success and failure alike, including texts of any malformed shape."
  },
  {
   "property": "C139",
   "status": "partial",
   "theorems": [
    "C139_written",
    "C139_new",
    "C139_nested_refuted"
   ],
   "note": "C139_written is about the object and all inside it reached through known objects, each named once; C139_new about a new object without an id. The clause about one id standing for one object fails inside new objects: ObjType.deserialize updates a known object with a table made from it alone, and another known object named there is duplicated."
  },
  {
   "property": "C14",
   "status": "proved",
   "theorems": [
    "C14_total_released",
    "C14_partition_free"
   ],
   "note": "For PointLineRelease; other classes share the count logic."
  },
  {
   "property": "C140",
   "status": "partial",
   "theorems": [
    "C140_flag_partial",
    "C140_flag_refuted"
   ],
   "note": "Exact for plain and object attributes. A list or collection is emptied and filled in place and then compared with itself, so its changes are never reported."
  },
  {
   "property": "C141",
   "status": "partial",
   "theorems": [
    "C141_failed_partial",
    "C141_atomic_refuted"
   ],
   "note": "Plain and object attributes of the object are kept. A list or collection that was being read is left partly filled, and objects inside may have been updated."
  },
  {
   "property": "C142",
   "status": "partial",
   "theorems": [
    "C142_equal",
    "C142_no_error_partial",
    "C142_no_error_refuted"
   ],
   "note": "The meaning of == is exact for all values. No exception for objects of the same make (float with number, arrays with arrays of the same shape, None with anything but those); a float against None raises TypeError and arrays of one size but different shapes ValueError."
  },
  {
   "property": "C143",
   "status": "partial",
   "theorems": [
    "C143_copy_partial",
    "C143_nan_refuted"
   ],
   "note": "For objects without NaN in what is compared. With a NaN (a float or an entry of an array) an object is not equal to itself."
  },
  {
   "property": "C144",
   "status": "partial",
   "theorems": [
    "C144_symmetric_partial",
    "C144_transitive_partial",
    "C144_exact_partial",
    "C144_symmetric_refuted",
    "C144_transitive_refuted"
   ],
   "note": "False as stated because the tolerance is relative to the right-hand side. Proved: b == a with the tolerances divided by 1 - rtol, chains with tolerances added, and both exactly when no compared attribute is a float or array."
  },
  {
   "property": "C145",
   "status": "partial",
   "theorems": [
    "C145_empty",
    "C145_lists",
    "C145_list_given_partial",
    "C145_other_class_refuted"
   ],
   "note": "Exact within a class. For different classes the form without fail_early goes on to read the attributes of the other object and can raise AttributeError."
  },
  {
   "property": "C146",
   "status": "partial",
   "theorems": [
    "C146_read_back",
    "C146_again",
    "C146_uncertain_partial",
    "C146_uncertain_refuted",
    "C146_late_balance_refuted"
   ],
   "note": "Proved for every run without uncertainty and with uncertainty when both sets have as many elements in every step. False otherwise: both files are written from one start index, so with different counts (elements that leave the map are removed from each set) steps overwrite each other. A mass balance that is empty when the run is prepared and not later raises KeyError."
  },
  {
   "property": "C147",
   "status": "partial",
   "theorems": [
    "C147_nearest_partial",
    "C147_exact_partial",
    "C147_backward_refuted",
    "C147_backward_first"
   ],
   "note": "Proved for files of runs forward in time. In the file of a backward run every time but the start gives the first step."
  },
  {
   "property": "C148",
   "status": "partial",
   "theorems": [
    "C148_negative",
    "C148_too_large",
    "C148_only",
    "C148_too_small_refuted"
   ],
   "note": "False for an index below -n: -n-1 gives the time of the last step with the positions of the first elements."
  },
  {
   "property": "C149",
   "status": "partial",
   "theorems": [
    "C149_first_partial",
    "C149_usable",
    "C149_second_run_refuted",
    "C149_switch_refuted",
    "C149_read_most_refuted"
   ],
   "note": "Proved for the first run of an outputter. Later runs never write an array that was missing in an earlier one, and keep the arrays of an earlier 'all'; read_data with 'most' returns no arrays (the string is read as a list of names)."
  },
  {
   "property": "C15",
   "status": "proved",
   "theorems": [
    "C15_mass_shared"
   ],
   "note": "Floats idealised as rationals."
  },
  {
   "property": "C150",
   "status": "partial",
   "theorems": [
    "C150_stored",
    "C150_restate",
    "C150_new",
    "C150_points",
    "C150_density_partial",
    "C150_density_refuted",
    "C150_units_refuted"
   ],
   "note": "Proved for set, get and the constructor. False in two points: assigning units with an invalid one raises after the ones before it have been changed, so quantities change their meaning; the density is always computed in kg/m^3 and then read as if in the unit stored for it."
  },
  {
   "property": "C151",
   "status": "partial",
   "theorems": [
    "C151_bounds",
    "C151_wind",
    "C151_fetch",
    "C151_wind_fetch_partial",
    "C151_wind_fetch_refuted"
   ],
   "note": "Growth with the wind is proved on the open sea. With a fetch the two formulas do not meet: at 226800 m a wind of 10.01 m/s raises lower waves than one of 10 m/s; proved instead that more wind never lowers the waves by more than a fiftieth."
  },
  {
   "property": "C152",
   "status": "proved",
   "theorems": [
    "C152_fraction",
    "C152_wind",
    "C152_salt",
    "C152_no_jump",
    "C152_decay"
   ],
   "note": ""
  },
  {
   "property": "C153",
   "status": "proved",
   "theorems": [
    "C153_wind_of_waves",
    "C153_given",
    "C153_same_waves",
    "C153_emulsification"
   ],
   "note": "Exact above the threshold, 4.43 m/s; below it the rounded exponent 0.813008 gives an error of at most 0.00001 m/s, and of the white caps of at most 1e-7."
  },
  {
   "property": "C154",
   "status": "partial",
   "theorems": [
    "C154_wind_partial",
    "C154_given",
    "C154_calm",
    "C154_stress_refuted",
    "C154_value"
   ],
   "note": "False: the code has a factor of the wind too many (U * 0.71 * U**1.23), in every range of winds; 32 m/s give more than 1200 s where the comment in the code has 15.7 s. Growth with wind and height proved."
  },
  {
   "property": "C155",
   "status": "partial",
   "theorems": [
    "C155_nodes_partial",
    "C155_cells",
    "C155_one_row_refuted",
    "C155_unequal_refuted",
    "C155_seconds_refuted",
    "C155_units_refuted"
   ],
   "note": "Proved for grids at equal distances with two or more nodes in each direction, or any cells, times to the minute and units of one word. Not so otherwise: a single row of nodes comes back as nan, unequal distances are made equal, seconds are dropped, and of units with several words only the first is read."
  },
  {
   "property": "C156",
   "status": "partial",
   "theorems": [
    "C156_nodes",
    "C156_cells",
    "C156_outside",
    "C156_row_zero_refuted",
    "C156_blank_refuted"
   ],
   "note": "Proved for rows and columns counted from 1. Row or column 0 (and below) is not an error: it is taken for the last one. An empty line before the header raises."
  },
  {
   "property": "C157",
   "status": "partial",
   "theorems": [
    "C157_contents",
    "C157_nodes",
    "C157_cells",
    "C157_extrapolation_refuted"
   ],
   "note": "Proved for init_from_gridcur; from_gridcur does not hand the setting on, the current never extrapolates."
  },
  {
   "property": "C158",
   "status": "partial",
   "theorems": [
    "C158_archive_partial",
    "C158_broken",
    "C158_lost_refuted"
   ],
   "note": "Proved if the last step is to be written (the default) or the run fails in between. If the last step is not to be written, the run ends with FileNotFoundError and the whole output of the run is lost: the loose files have been moved into an archive that is then overwritten by an empty one."
  },
  {
   "property": "C159",
   "status": "partial",
   "theorems": [
    "C159_loose_partial",
    "C159_second_refuted",
    "C159_others_refuted"
   ],
   "note": "The files left are proved. A file name without a directory makes a second run fail with ValueError; with one, every file of that kind in the directory is deleted, whoever wrote it."
  },
  {
   "property": "C16",
   "status": "proved",
   "theorems": [
    "C16_arrays_aligned",
    "C16_plain_runs_aligned",
    "C16_release_appends",
    "C16_release_count",
    "C16_new_array_refuted",
    "C16_bad_split_refuted",
    "C16_view_again_refuted"
   ],
   "note": "C16_plain_runs_aligned is the property as stated (rewind, prepare, release, removal, failing releases included). C16_arrays_aligned extends it to splits, views and replaced arrays under the conditions of ScSpec.tidy; the refuted theorems show that each condition is needed."
  },
  {
   "property": "C160",
   "status": "proved",
   "theorems": [
    "C160_contents",
    "C160_time"
   ],
   "note": "Values are rational numbers: the rounding to 32-bit floats, which for the times amounts to up to 14 seconds, is not modelled."
  },
  {
   "property": "C161",
   "status": "partial",
   "theorems": [
    "C161_rows",
    "C161_hours",
    "C161_distinct",
    "C161_short_refuted",
    "C161_on_refuted"
   ],
   "note": "The rows are proved; with time steps under a minute several rows have the same time. The constructor's on argument is ignored."
  },
  {
   "property": "C162",
   "status": "partial",
   "theorems": [
    "C162_files",
    "C162_returned",
    "C162_rounded",
    "C162_forecast_refuted",
    "C162_round_refuted"
   ],
   "note": "Which files there are and what is returned is proved. The files never hold the forecast: the same file is written a second time with the uncertain elements, of which there are none in a certain run. round_data=False is ignored."
  },
  {
   "property": "C163",
   "status": "partial",
   "theorems": [
    "C163_off_partial",
    "C163_on",
    "C163_deaf_refuted",
    "C163_cache_refuted",
    "C163_never_refuted"
   ],
   "note": "Proved for outputters that look at on. TrajectoryGeoJsonOutput and WeatheringOutput write every step when off; binary, KMZ and NetCDF outputters that are off end the run with an exception if they were given to the constructor of the model, or if they do not write the first step and were never on."
  },
  {
   "property": "C164",
   "status": "partial",
   "theorems": [
    "C164_file",
    "C164_broken",
    "C164_stopped",
    "C164_layer",
    "C164_meet_partial",
    "C164_gap_refuted",
    "C164_backward_refuted"
   ],
   "note": "Contents proved; the times of the layers meet if the output interval is a multiple of the time step or not set. Other intervals leave gaps and overlaps, and in backward runs a layer ends before it begins."
  },
  {
   "property": "C165",
   "status": "partial",
   "theorems": [
    "C165_count_partial",
    "C165_rest_refuted"
   ],
   "note": "The time step must divide the duration: otherwise the rest after the last whole step is left out with its elements, and a duration shorter than a step gives nothing."
  },
  {
   "property": "C166",
   "status": "partial",
   "theorems": [
    "C166_steps",
    "C166_all",
    "C166_place_partial",
    "C166_none_refuted",
    "C166_counter_refuted",
    "C166_run_refuted",
    "C166_endless_refuted"
   ],
   "note": "True for the numbers and places of releases with an end, and for placing when the attribute num_released, which no class sets, exists and there are new elements. As the code is, placing raises AttributeError (num_released is never set), and a spill in a run calls neither method: the base class raises ValueError when the release time is reached. A step without new elements raises ValueError when positions are set (the slice of the last 0 is the whole array) and a release without end and number raises OverflowError."
  },
  {
   "property": "C167",
   "status": "proved",
   "theorems": [
    "C167_mass",
    "C167_default"
   ],
   "note": ""
  },
  {
   "property": "C168",
   "status": "proved",
   "theorems": [
    "C168_splot",
    "C168_negative"
   ],
   "note": ""
  },
  {
   "property": "C169",
   "status": "partial",
   "theorems": [
    "C169_concentration",
    "C169_kernel",
    "C169_algorithm",
    "C169_place_refuted"
   ],
   "note": "The value is that of the estimate for the bin of ages of one hour the element is in, which leaves out older oil: two elements of a spill at one place can have different values. An unknown algorithm is refused only if there are elements."
  },
  {
   "property": "C17",
   "status": "partial",
   "theorems": [
    "C17_ids_increasing_partial",
    "C17_never_reused_partial",
    "C17_failing_release_refuted",
    "C17_split_refuted"
   ],
   "note": "Holds for every history without splits, without writes to the ids and without failing releases. A release that raises after the arrays were lengthened leads to ids handed out twice; split_element gives all parts the same id."
  },
  {
   "property": "C170",
   "status": "partial",
   "theorems": [
    "C170_contours",
    "C170_cover",
    "C170_single_refuted",
    "C170_keys_refuted"
   ],
   "note": "True of two or more ascending cutoffs with all keys; a single cutoff leaves out the elements above it; the documented structure without color and cutoff_id raises KeyError; a value equal to a cutoff is in two contours."
  },
  {
   "property": "C171",
   "status": "proved",
   "theorems": [
    "C171_separate",
    "C171_together"
   ],
   "note": ""
  },
  {
   "property": "C172",
   "status": "partial",
   "theorems": [
    "C172_within",
    "C172_ends",
    "C172_endless_refuted",
    "C172_sign_refuted"
   ],
   "note": "Within the limits for all draws, and the loop ends if usable draws keep coming; limits changed so that the minimum is above the maximum make it endless; a negative lambda_ is accepted and gives negative sizes."
  },
  {
   "property": "C173",
   "status": "partial",
   "theorems": [
    "C173_accepted",
    "C173_errors",
    "C173_share_partial",
    "C173_equal_refuted"
   ],
   "note": "Equal limits are accepted although the share of sizes within them is 0."
  },
  {
   "property": "C174",
   "status": "partial",
   "theorems": [
    "C174_inverse",
    "C174_density",
    "C174_mean",
    "C174_range_refuted"
   ],
   "note": "True of all fractions from 0 up to 1; fractions outside are not refused."
  },
  {
   "property": "C175",
   "status": "partial",
   "theorems": [
    "C175_masses_partial",
    "C175_numpy_refuted"
   ],
   "note": "True with NumPy 1; with NumPy 2, which the requirements ask for, np.alltrue is missing and every step with surface oil raises AttributeError."
  },
  {
   "property": "C176",
   "status": "partial",
   "theorems": [
    "C176_times",
    "C176_fails",
    "C176_calm_refuted"
   ],
   "note": "The step fails in an assertion just if an element has no waves and its droplets have no size or the density of the water, as before the first waves."
  },
  {
   "property": "C177",
   "status": "partial",
   "theorems": [
    "C177_own_partial",
    "C177_company_refuted"
   ],
   "note": "False: the winds of all elements are multiplied together (np.prod). True of elements without slick area."
  },
  {
   "property": "C178",
   "status": "partial",
   "theorems": [
    "C178_new",
    "C178_refused",
    "C178_set",
    "C178_delete_partial",
    "C178_exclusive",
    "C178_delete_refuted",
    "C178_thick_refuted"
   ],
   "note": "None raises KeyError when the first polygon has no value to remove (C178_delete_refuted), and a wrong number of thicknesses is accepted and fails with TypeError when the distribution is computed (C178_thick_refuted)."
  },
  {
   "property": "C179",
   "status": "partial",
   "theorems": [
    "C179_shares_partial",
    "C179_coordinates",
    "C179_refused",
    "C179_area_refuted",
    "C179_accepted_refuted"
   ],
   "note": "The share by area is that of square degrees, not of the areas in square metres that the release reports (C179_area_refuted). Weights with a sum within 0.001% of 1 and negative weights are accepted by prepare and raise ValueError when elements are released (C179_accepted_refuted). Polygons without triangles are left out of the statement on sums."
  },
  {
   "property": "C18",
   "status": "proved",
   "theorems": [
    "C18_removes_the_marked"
   ],
   "note": ""
  },
  {
   "property": "C180",
   "status": "proved",
   "theorems": [
    "C180_inside",
    "C180_number"
   ],
   "note": "The triangles of a polygon are taken to lie in it. The condition that NumPy accepts the probabilities is that of C179_accepted_refuted."
  },
  {
   "property": "C181",
   "status": "proved",
   "theorems": [
    "C181_inside",
    "C181_even"
   ],
   "note": ""
  },
  {
   "property": "C182",
   "status": "partial",
   "theorems": [
    "C182_resolution_partial",
    "C182_narrow_refuted",
    "C182_wide_refuted"
   ],
   "note": "A box so narrow that less than half a column is due, or without height, raises ZeroDivisionError; one so wide that no row is due has 0 elements and can not be prepared."
  },
  {
   "property": "C183",
   "status": "partial",
   "theorems": [
    "C183_grid",
    "C183_negative_refuted"
   ],
   "note": "Two negative numbers are accepted and prepared, and raise ValueError when the elements are released."
  },
  {
   "property": "C184",
   "status": "partial",
   "theorems": [
    "C184_file_partial",
    "C184_carry",
    "C184_given",
    "C184_times_refuted",
    "C184_null_refuted"
   ],
   "note": "All polygons are released at the time of the first record; a record with a null type raises AttributeError and an empty file IndexError."
  },
  {
   "property": "C185",
   "status": "partial",
   "theorems": [
    "C185_shift_partial",
    "C185_unknown",
    "C185_instant_refuted"
   ],
   "note": "True for releases with an end. An instantaneous release without one gets the difference of the zones as its duration, or ValueError if the difference is negative."
  },
  {
   "property": "C186",
   "status": "proved",
   "theorems": [
    "C186_written",
    "C186_error",
    "C186_figures",
    "C186_refused"
   ],
   "note": "float(text) is an argument; the error bound takes its relative error to be at most 2^-53 (no overflow or underflow). Arrays of one dimension."
  },
  {
   "property": "C187",
   "status": "partial",
   "theorems": [
    "C187_stable",
    "C187_order",
    "C187_distinct_refuted"
   ],
   "note": "Different numbers can become one (C187_distinct_refuted), for example two reference temperatures."
  },
  {
   "property": "C188",
   "status": "partial",
   "theorems": [
    "C188_copy",
    "C188_refused",
    "C188_mass_partial",
    "C188_mass_refuted"
   ],
   "note": "The copy is made from the json, so its fractions are rounded to eight digits; components of uncertain elements sum up to the mass only to 5.1e-8 (C188_mass_refuted)."
  },
  {
   "property": "C189",
   "status": "partial",
   "theorems": [
    "C189_accepted",
    "C189_round_trip",
    "C189_subsecond_refuted"
   ],
   "note": "The condition is on the whole seconds of the times: a strictly ascending series with two times in a second is refused (C189_subsecond_refuted)."
  },
  {
   "property": "C19",
   "status": "partial",
   "theorems": [
    "C19_view_rows_partial",
    "C19_write_back_partial",
    "C19_read_back_partial",
    "C19_stale_view_refuted",
    "C16_view_again_refuted"
   ],
   "note": "Holds if the view has no arrays left over from an earlier request and is not an alias of the container that has since lost elements; both cases are refuted without the condition."
  },
  {
   "property": "C190",
   "status": "partial",
   "theorems": [
    "C190_round_trip",
    "C190_instant_partial",
    "C190_zone_refuted"
   ],
   "note": "The time zone is dropped without a conversion: the wall clock is kept, not the instant. The texts of dates are not modelled."
  },
  {
   "property": "C191",
   "status": "partial",
   "theorems": [
    "C191_exact",
    "C191_long_refuted"
   ],
   "note": "Exact below 2^52 microseconds (142 years); false above (C191_long_refuted)."
  },
  {
   "property": "C192",
   "status": "partial",
   "theorems": [
    "C192_round_trip",
    "C192_base",
    "C192_list_refuted",
    "C192_collision_refuted"
   ],
   "note": "A list of one name comes back as the name; names of different folders can collide without raw paths."
  },
  {
   "property": "C193",
   "status": "partial",
   "theorems": [
    "C193_given",
    "C193_made",
    "C193_makes",
    "C193_kept_partial",
    "C193_shared_refuted",
    "C193_negative"
   ],
   "note": "Kept as long as no other spill has the same release: two spills of one release share its mass (C193_shared_refuted). Exact arithmetic; nucos is a table of unit sizes."
  },
  {
   "property": "C194",
   "status": "proved",
   "theorems": [
    "C194_kept",
    "C194_back",
    "C194_refused"
   ],
   "note": "Exact arithmetic."
  },
  {
   "property": "C195",
   "status": "partial",
   "theorems": [
    "C195_mass_partial",
    "C195_volume_refuted"
   ],
   "note": "The mass is kept; a volume is not: it changes by the ratio of the densities."
  },
  {
   "property": "C196",
   "status": "partial",
   "theorems": [
    "C196_number",
    "C196_number_given",
    "C196_mass_partial",
    "C196_mass_refuted"
   ],
   "note": "The mass of the release is overwritten by the amount of the spill, 0 by default (C196_mass_refuted)."
  },
  {
   "property": "C197",
   "status": "partial",
   "theorems": [
    "C197_shifted",
    "C197_times",
    "C197_back_refuted",
    "C197_off"
   ],
   "note": "A shift down does not undo a shift up."
  },
  {
   "property": "C198",
   "status": "partial",
   "theorems": [
    "C198_one_partial",
    "C198_one_refuted",
    "C198_set",
    "C198_negative_refuted"
   ],
   "note": "Setting the rate to None raises TypeError after dropping it, which leaves neither; a negative rate is accepted."
  },
  {
   "property": "C199",
   "status": "partial",
   "theorems": [
    "C199_asked",
    "C199_makes",
    "C199_kept_partial",
    "C199_shared_refuted",
    "C199_refused",
    "C199_substance"
   ],
   "note": "A helper sets the windage on the substance object: spills that share the substance all get the last windage (C199_shared_refuted)."
  },
  {
   "property": "C20",
   "status": "partial",
   "theorems": [
    "C20_split_partial",
    "C20_split_errors",
    "C20_exact_mass_refuted",
    "C20_negative_mass_refuted",
    "C16_bad_split_refuted",
    "C16_view_again_refuted"
   ],
   "note": "Holds when no view aliases the container; masses are exact for equal parts and for fractions that add up to 1 exactly (total = mass * sum of fractions). Fractions are accepted within 1e-5 of 1 and may be negative."
  },
  {
   "property": "C200",
   "status": "partial",
   "theorems": [
    "C200_brought_partial",
    "C200_adding",
    "C200_adding_env",
    "C200_others",
    "C200_constructor",
    "C200_constructor_refuted",
    "C200_later_refuted"
   ],
   "note": "Not for objects given to the constructor, whose references are not added (C200_constructor_refuted), nor after an environment object is removed or replaced or a reference is changed (C200_later_refuted)."
  },
  {
   "property": "C201",
   "status": "partial",
   "theorems": [
    "C201_lists",
    "C201_environment",
    "C201_twice",
    "C201_self",
    "C201_time_partial",
    "C201_time_refuted"
   ],
   "note": "A model without a time step takes the number of time steps of the other model and keeps its own duration (C201_time_refuted)."
  },
  {
   "property": "C202",
   "status": "proved",
   "theorems": [
    "C202_once",
    "C202_found",
    "C202_contains",
    "C202_removed",
    "C202_replaced",
    "C202_class",
    "C202_property"
   ],
   "note": "Replacing by id. The release and the substance of a spill are not found: they are no members of a collection."
  },
  {
   "property": "C203",
   "status": "partial",
   "theorems": [
    "C203_standard",
    "C203_names",
    "C203_refused",
    "C203_text_refuted"
   ],
   "note": "A single name is refused: its letters are taken as names. After an unknown name the names before it stay added."
  },
  {
   "property": "C204",
   "status": "partial",
   "theorems": [
    "C204_version",
    "C204_same",
    "C204_again",
    "C204_newer_refuted"
   ],
   "note": "A folder of a newer version than known is accepted as it is (C204_newer_refuted)."
  },
  {
   "property": "C205",
   "status": "partial",
   "theorems": [
    "C205_files_partial",
    "C205_kept",
    "C205_names",
    "C205_two_refuted"
   ],
   "note": "Not if two WeatheringData are named one after the other: the second stays named (C205_two_refuted). Versions 0 and 1 are C207 and C208."
  },
  {
   "property": "C206",
   "status": "partial",
   "theorems": [
    "C206_redo_partial",
    "C206_names",
    "C206_torn_refuted"
   ],
   "note": "Between two changes, versions 2 to 4, class names as in C206_names. In the middle of a change no update succeeds any more (C206_torn_refuted); versions 0 and 1 are refuted in C207_redo_refuted and C208_redo_refuted."
  },
  {
   "property": "C207",
   "status": "partial",
   "theorems": [
    "C207_windages_partial",
    "C207_order",
    "C207_shared_refuted",
    "C207_redo_refuted",
    "C207_id_refuted"
   ],
   "note": "Not if two substances share an initializer (the update fails after version 2 is written, C207_shared_refuted). Interrupted it leaves initializers (C207_redo_refuted). Replaced oils all have the same id (C207_id_refuted)."
  },
  {
   "property": "C208",
   "status": "partial",
   "theorems": [
    "C208_substance_partial",
    "C208_files",
    "C208_two_refuted",
    "C208_redo_refuted",
    "C208_oil_refuted"
   ],
   "note": "All spills get the substance of the first element type (C208_two_refuted); an interrupted update cannot be done again (C208_redo_refuted); the oil made is not checked (C208_oil_refuted)."
  },
  {
   "property": "C209",
   "status": "partial",
   "theorems": [
    "C209_pairs_partial",
    "C209_twice_refuted"
   ],
   "note": "Not for a value given twice: the first copy gets no uncertainty and the second gets it twice (C209_twice_refuted)."
  },
  {
   "property": "C21",
   "status": "partial",
   "theorems": [
    "C21_lockstep_partial",
    "C21_copies_partial",
    "C21_rewind_restores",
    "C21_lockstep_refuted",
    "C21_twice_refuted",
    "C21_setitem_refuted",
    "C21_switch_refuted"
   ],
   "note": "Full statement is false: a refused addition, adding a spill twice, assignment after a removal, and a failing switch break the correspondence (refuted theorems). Proved for all histories without those, and that an error-free rewind restores equal contents from any state."
  },
  {
   "property": "C210",
   "status": "proved",
   "theorems": [
    "C210_all",
    "C210_same",
    "C210_one",
    "C210_refused",
    "C210_history"
   ],
   "note": "All answers in time and no exceptions; the rest is C211."
  },
  {
   "property": "C211",
   "status": "partial",
   "theorems": [
    "C211_kept",
    "C211_stopped",
    "C211_late",
    "C211_exception_refuted",
    "C211_lost_refuted",
    "C211_turn_refuted",
    "C211_timeout_refuted"
   ],
   "note": "Every exception of a copy is a TypeError for the caller (C211_exception_refuted); a late answer to a command to one copy makes every later command to it or to all raise (C211_lost_refuted); a timeout one after the other is not restored (C211_timeout_refuted). That a stopped broadcaster is one forever follows from C211_stopped."
  },
  {
   "property": "C212",
   "status": "partial",
   "theorems": [
    "C212_made_partial",
    "C212_once_partial",
    "C212_default_refuted",
    "C212_grid_refuted"
   ],
   "note": "For a given list of classes. By default no class is tried and the analysis of a file always raises (C212_default_refuted); a grid given by the caller is used by no object (C212_grid_refuted); once only if the references are found (else C213_wrong_refuted)."
  },
  {
   "property": "C213",
   "status": "partial",
   "theorems": [
    "C213_linked_partial",
    "C213_kept",
    "C213_earlier",
    "C213_wrong_refuted"
   ],
   "note": "If the classes required have objects. If one has none, another object of the class itself fills the reference and is in the list too (C213_wrong_refuted)."
  },
  {
   "property": "C214",
   "status": "partial",
   "theorems": [
    "C214_contours_partial",
    "C214_none",
    "C214_test",
    "C214_covered_partial",
    "C214_once_partial",
    "C214_twice_refuted",
    "C214_single_refuted",
    "C214_columns_refuted"
   ],
   "note": "A value that is a cutoff is in two contours (C214_twice_refuted); with one cutoff larger values are in none (C214_single_refuted); contours by depth or windage always raise (C214_columns_refuted)."
  },
  {
   "property": "C215",
   "status": "proved",
   "theorems": [
    "C215_hulls",
    "C215_drawn",
    "C215_empty"
   ],
   "note": "concave_hull, buffer and union_all are arbitrary functions."
  },
  {
   "property": "C216",
   "status": "proved",
   "theorems": [
    "C216_styles",
    "C216_refused"
   ],
   "note": ""
  },
  {
   "property": "C217",
   "status": "partial",
   "theorems": [
    "C217_records_partial",
    "C217_dir_refuted",
    "C217_bounds_refuted",
    "C217_no_bounds"
   ],
   "note": "With a directory every step raises (C217_dir_refuted); the bounds are around the certain elements as well (C217_bounds_refuted). Rounding is not modelled."
  },
  {
   "property": "C218",
   "status": "partial",
   "theorems": [
    "C218_read_partial",
    "C218_one_meaning",
    "C218_type",
    "C218_thin_refuted"
   ],
   "note": "A polygon of three points, the last repeating the first, is read as a polygon of two points (C218_thin_refuted)."
  },
  {
   "property": "C219",
   "status": "partial",
   "theorems": [
    "C219_only_value",
    "C219_short_partial",
    "C219_zero_partial",
    "C219_header_partial",
    "C219_one_refuted",
    "C219_comma_refuted"
   ],
   "note": "A line with one number is read as a point with this number twice (C219_one_refuted); without the comma the first digit of the number of points is dropped (C219_comma_refuted)."
  },
  {
   "property": "C22",
   "status": "partial",
   "theorems": [
    "C22_skim_partial",
    "C22_disperse_partial",
    "C22_skim_short",
    "C22_disperse_short",
    "C22_off",
    "C22_refuted",
    "C22_substeps_refuted"
   ],
   "note": "False as stated: an option whose window begins and ends within one step operates from the beginning of that step (C22_refuted, C22_skim_short, C22_disperse_short). Proved for every other alignment. With weathering substeps it operates for the whole step in each substep."
  },
  {
   "property": "C220",
   "status": "partial",
   "theorems": [
    "C220_zip_partial",
    "C220_offset",
    "C220_dots_refuted"
   ],
   "note": "For a name with a dot before its suffix the four shapefiles have the same temporary name and the last one written takes the place of the others (C220_dots_refuted)."
  },
  {
   "property": "C221",
   "status": "partial",
   "theorems": [
    "C221_plain_partial",
    "C221_bundle_refuted",
    "C221_told_refuted",
    "C221_switched"
   ],
   "note": "For the first run of an outputter without uncertainty and names without a dot. With uncertainty the bundle has only the .shp parts (C221_bundle_refuted); by default the name told ends in .zip and is not written (C221_told_refuted)."
  },
  {
   "property": "C222",
   "status": "partial",
   "theorems": [
    "C222_kind_partial",
    "C222_short_refuted",
    "C222_new_partial",
    "C222_new_refused",
    "C222_zero_refuted"
   ],
   "note": "A file of fewer than two lines raises an IndexError (C222_short_refuted); a scale factor of zero is taken for none (C222_zero_refuted)."
  },
  {
   "property": "C223",
   "status": "partial",
   "theorems": [
    "C223_get_partial",
    "C223_there",
    "C223_refused",
    "C223_address",
    "C223_folder",
    "C223_crash_partial",
    "C223_crash_refuted"
   ],
   "note": "After a stop the part that was written is taken for the file (C223_crash_refuted)."
  },
  {
   "property": "C224",
   "status": "partial",
   "theorems": [
    "C224_run",
    "C224_set",
    "C224_step",
    "C224_steady_partial",
    "C224_hours_refuted",
    "C224_wind_refuted",
    "C224_new"
   ],
   "note": "A change of the hours or of the wind during a run is not seen while the old average covers the time (C224_hours_refuted, C224_wind_refuted)."
  },
  {
   "property": "C225",
   "status": "partial",
   "theorems": [
    "C225_run_partial",
    "C225_told",
    "C225_off",
    "C225_uncertain_partial",
    "C225_refused_refuted",
    "C225_lacks_refuted"
   ],
   "note": "Runs with uncertainty are refused; what came before in the step is kept (C225_refused_refuted), even an entry without all its arrays (C225_lacks_refuted)."
  },
  {
   "property": "C226",
   "status": "partial",
   "theorems": [
    "C226_told_partial",
    "C226_whole_partial",
    "C226_refused",
    "C226_alone_refuted",
    "C226_read_only"
   ],
   "note": "An update that does not give the name, the type and the id is refused with a KeyError (C226_alone_refuted)."
  },
  {
   "property": "C23",
   "status": "partial",
   "theorems": [
    "C23_marking_partial",
    "C23_burn_once",
    "C23_disperse_once",
    "C23_burn_marks",
    "C23_disperse_marks",
    "C23_skim_marks",
    "C23_zero_refuted",
    "C23_skimmer_again_refuted"
   ],
   "note": "Proved for a positive requested mass and water fractions below 1. A requested mass of 0 marks one element. The skimmer marks again at each step because it looks for a flag other than the one it sets."
  },
  {
   "property": "C24",
   "status": "proved",
   "theorems": [
    "C24_skim",
    "C24_burn",
    "C24_disperse",
    "C24_inactive",
    "C24_none_efficiency_refuted",
    "C24_two_dispersions_refuted"
   ],
   "note": "For element masses that are sums of non-negative components. Findings: without an efficiency marking raises TypeError; the second of two dispersions raises TypeError when it weathers."
  },
  {
   "property": "C25",
   "status": "partial",
   "theorems": [
    "C25_evaporation",
    "C25_evaporation_fractions",
    "C25_dispersion",
    "C25_biodegradation",
    "C25_beaching",
    "C25_beaching_inactive",
    "C25_halflife_partial",
    "C25_halflife_refuted",
    "C25_sinking_refuted"
   ],
   "note": "Proved for evaporation, natural dispersion of floating oil (default algorithm), biodegradation and manual beaching. False for half-life decay, which lowers masses but adds nothing to the mass balance, and for dispersion of oil heavier than the water, which gains mass. The Li2017 dispersion algorithm and dissolution are not modelled."
  },
  {
   "property": "C26",
   "status": "proved",
   "theorems": [
    "C26_add",
    "C26_steps",
    "C26_half"
   ],
   "note": "Full statement, for positive half-lives."
  },
  {
   "property": "C27",
   "status": "proved",
   "theorems": [
    "C27_step",
    "C27_waits",
    "C27_run"
   ],
   "note": "Full statement, for positive time steps; the bound is the volume over the least thickness, or the present area if that is already larger."
  },
  {
   "property": "C28",
   "status": "proved",
   "theorems": [
    "C28_coverage",
    "C28_weather"
   ],
   "note": "Full statement, with infinities and NaN as numpy has them."
  },
  {
   "property": "C29",
   "status": "proved",
   "theorems": [
    "C29_ordered",
    "C29_unique",
    "C29_unlisted"
   ],
   "note": "Full statement for weatherers of the listed classes, after any history of calls on the collection except assignment by position. A weatherer of an unlisted class (a subclass of a listed one included) makes the setup raise TypeError unless it is the only weatherer."
  },
  {
   "property": "C30",
   "status": "proved",
   "theorems": [
    "C30_walk_terminates_and_is_straight"
   ],
   "note": "Pixel coordinates up to 2^28 in magnitude."
  },
  {
   "property": "C31",
   "status": "proved",
   "theorems": [
    "C31_no_land_unnoticed",
    "C31_hit_is_first_land"
   ],
   "note": ""
  },
  {
   "property": "C32",
   "status": "proved",
   "theorems": [
    "C32_never_reads_outside",
    "C32_layered_never_reads_outside"
   ],
   "note": ""
  },
  {
   "property": "C33",
   "status": "partial",
   "theorems": [
    "C33_layered_agrees_refuted",
    "C33_layered_partial",
    "C33_layered_visited_partial"
   ],
   "note": "False: the coarse walk can step past the block of a land pixel. A layered hit is always the full-resolution hit, and the checks agree on movements inside one row or column of blocks."
  },
  {
   "property": "C34",
   "status": "proved",
   "theorems": [
    "C34_coarse_cell_iff_block_has_land"
   ],
   "note": ""
  },
  {
   "property": "C35",
   "status": "proved",
   "theorems": [
    "C35_beaching",
    "C35_beached_does_not_drift"
   ],
   "note": "Floats idealised as rationals; pixel coordinates up to 2^28."
  },
  {
   "property": "C36",
   "status": "proved",
   "theorems": [
    "C36_refloating"
   ],
   "note": ""
  },
  {
   "property": "C37",
   "status": "partial",
   "theorems": [
    "C37_off_map_mass_booked_once_partial",
    "C37_off_map_mass_booked_once_refuted"
   ],
   "note": "Proved for GnomeMap and RasterMap; false for ParamMap, which books lost mass three times."
  },
  {
   "property": "C38",
   "status": "partial",
   "theorems": [
    "C38_land_queries_agree_partial",
    "C38_land_queries_agree_refuted",
    "C38_in_water_refuted"
   ],
   "note": "Proved for rasters of 0 and 1; false for other raster values, and in_water is wrong off the raster."
  },
  {
   "property": "C39",
   "status": "partial",
   "theorems": [
    "C39_load_partial",
    "C39_save_partial",
    "C39_stale_refuted",
    "C39_disabled_refuted",
    "C39_names_refuted",
    "C39_directory_refuted"
   ],
   "note": "Proved with a store of shared arrays (later changes of containers or of loaded arrays do not reach the cache) for every history of an enabled cache in which no step is saved again without its uncertain container and names are distinct. A step saved again without the uncertain container returns the old one (C39_stale_refuted); a step saved while disabled is lost at the next save (C39_disabled_refuted); a mass-balance name equal to an array name loses the array (C39_names_refuted); a missing directory given by the user is not made (C39_directory_refuted)."
  },
  {
   "property": "C40",
   "status": "partial",
   "theorems": [
    "C40_schedule_partial",
    "C40_anchor",
    "C40_interval",
    "C40_every_step_refuted",
    "C40_subsecond_refuted"
   ],
   "note": "Proved for all forward runs including start times and single steps, except that output at every step (no interval) with output_zero_step off writes only the last step; sub-second intervals divide by zero."
  },
  {
   "property": "C41",
   "status": "partial",
   "theorems": [
    "C41_backward_partial",
    "C41_backward_refuted",
    "C41_start_refuted"
   ],
   "note": "False in general: the residue of negative numbers is wrong and output_start_time is inverted. Proved when the time step divides the interval or the interval divides it."
  },
  {
   "property": "C42",
   "status": "proved",
   "theorems": [
    "C42_confined",
    "C42_complete",
    "C42_clash_refuted",
    "C42_load",
    "C42_load_bare",
    "C42_update_confined",
    "C42_update_complete",
    "C42_update_text_refuted"
   ],
   "note": "Both extractions (persist/save_load.py and the one GnomeObject.load uses, utilities/save_updater.py), with the file system, path resolution and failing writes modelled; symbolic links are not. Findings: members with the same last part overwrite each other silently; load of an archive named without a directory extracts into the working directory and returns None; cleaning a member name rewrites the text of every json file."
  },
  {
   "property": "C43",
   "status": "proved",
   "theorems": [
    "C43_valid_iff",
    "C43_no_parent",
    "C43_hidden_json_refuted"
   ],
   "note": "Exact characterisation of the accepted archives. The size quotient is exact (a float in the code). Finding: a file named just .json has no extension for splitext and is not limited."
  },
  {
   "property": "C44",
   "status": "partial",
   "theorems": [
    "C44_reference_partial",
    "C44_stable_partial",
    "C44_named_partial",
    "C44_collision_refuted",
    "C44_falsy_refuted"
   ],
   "note": "Holds for histories in which objects are true, explicit names are non-empty, and an explicit name of the automatic form has a number not beyond the number of references. Refuted without these conditions."
  },
  {
   "property": "C45",
   "status": "proved",
   "theorems": [
    "C45_rotation",
    "C45_reversal",
    "C45_closing",
    "C45_repetition",
    "C45_answers"
   ],
   "note": "For any polygon and point, in exact arithmetic."
  },
  {
   "property": "C46",
   "status": "proved",
   "theorems": [
    "C46_chord"
   ],
   "note": "Cutting a polygon along a chord: the answers of the pieces add up (exclusive or), for points on the boundary too."
  },
  {
   "property": "C47",
   "status": "proved",
   "theorems": [
    "C47_bounding_box"
   ],
   "note": ""
  },
  {
   "property": "C48",
   "status": "proved",
   "theorems": [
    "C48_area",
    "C48_rotation",
    "C48_translation",
    "C48_reversal",
    "C48_flat",
    "C48_convex"
   ],
   "note": "Zero-area polygons count as clockwise either way (C48_flat)."
  },
  {
   "property": "C49",
   "status": "partial",
   "theorems": [
    "C49_set",
    "C49_every_history",
    "C49_append",
    "C49_from_data_refuted",
    "C49_equality_partial",
    "C49_equality_refuted"
   ],
   "note": "Sets built by appending are proved for every history. A set made from data cannot be appended to, and equality ignores where one polygon ends and the next starts."
  },
  {
   "property": "C50",
   "status": "partial",
   "theorems": [
    "C50_points",
    "C50_no_points",
    "C50_point_inside",
    "C50_inside",
    "C50_overlaps",
    "C50_equality",
    "C50_null_overlap_refuted",
    "C50_merge",
    "C50_merge_null",
    "C50_bbarray",
    "C50_bbarray_null_refuted",
    "C50_constructor",
    "C50_corners"
   ],
   "note": "Every law is proved for proper boxes (and for the null box in Merge and equality). The null box overlaps the infinite box, and fromBBArray of a list with a null box loses the others."
  },
  {
   "property": "C51",
   "status": "proved",
   "theorems": [
    "C51_pixel_round_trip",
    "C51_scale_shows_box",
    "C51_scale_fills_image",
    "C51_shown_box_is_invertible",
    "C51_rectangular_round_trip",
    "C51_meters_round_trip"
   ],
   "note": ""
  },
  {
   "property": "C52",
   "status": "partial",
   "theorems": [
    "C52_convert_partial",
    "C52_convert_refuted"
   ],
   "note": "The -180..180 conversion is only right for longitudes in (-540, 540]; 0..360 is right everywhere."
  },
  {
   "property": "C53",
   "status": "partial",
   "theorems": [
    "C53_aligned_partial",
    "C53_kept_partial",
    "C53_renewed",
    "C53_drawn",
    "C53_inactive_refuted",
    "C53_delay_refuted"
   ],
   "note": "Proved for WindMover and CurrentMover and runs in which elements are removed only in steps in which the mover is active and past its delay. Elements removed while the mover is inactive shift the records to other elements (C53_inactive_refuted); elements removed before the delay is over stop the run with IndexError (C53_delay_refuted)."
  },
  {
   "property": "C54",
   "status": "partial",
   "theorems": [
    "C54_partial",
    "C54_whole",
    "C54_refuted",
    "C54_since_1970_refuted"
   ],
   "note": "False as stated: a step that begins before the start and ends after it raises IndexError; an option without a start counts from 1970. Proved for all other runs, for tables of whole seconds."
  },
  {
   "property": "C55",
   "status": "proved",
   "theorems": [
    "C55_round_nearest",
    "C55_round_array",
    "C55_seconds_round_trip",
    "C55_seconds_round_trip_refuted"
   ],
   "note": "The refuted theorem shows that the 32-bit range is needed."
  },
  {
   "property": "C56",
   "status": "proved",
   "theorems": [
    "C56_schemes",
    "C56_current",
    "C56_wind",
    "C56_dry",
    "C56_simple"
   ],
   "note": "Full statement for CurrentMover, WindMover (container that is not uncertain) and SimpleMover and the three schemes; the cosine of the latitude is a parameter."
  },
  {
   "property": "C57",
   "status": "proved",
   "theorems": [
    "C57_factor",
    "C57_monotone",
    "C57_move"
   ],
   "note": "Full statement."
  },
  {
   "property": "C58",
   "status": "proved",
   "theorems": [
    "C58_table",
    "C58_history",
    "C58_answers",
    "C58_makes",
    "C58_failure",
    "C58_duplicate_refuted"
   ],
   "note": "Full statement for distinct levels (the condition is needed: C58_duplicate_refuted); in addition the task of a pair evolves as a model of its own under the calls addressed to it. Processes and sockets are outside the model."
  },
  {
   "property": "C59",
   "status": "partial",
   "theorems": [
    "C59_keeps_input_partial",
    "C59_to_lonlat_keeps_input_refuted",
    "C59_rect_to_pixel_keeps_input_refuted"
   ],
   "note": "False for float arrays, which to_lonlat and RectangularGridProjection.to_pixel change in place."
  },
  {
   "property": "C60",
   "status": "proved",
   "theorems": [
    "C60_param_map_stops_on_shoreline",
    "C60_param_map_leaves_others"
   ],
   "note": ""
  },
  {
   "property": "C61",
   "status": "proved",
   "theorems": [
    "C61_infdatetime_accepts",
    "C61_infdatetime_compares"
   ],
   "note": ""
  },
  {
   "property": "C62",
   "status": "proved",
   "theorems": [
    "C62_offset_text"
   ],
   "note": "Float rounding idealised."
  },
  {
   "property": "C63",
   "status": "partial",
   "theorems": [
    "C63_shift_partial",
    "C63_mixed_not_shifted",
    "C63_shift_refuted"
   ],
   "note": "False when the points lie on both sides: the swallowed ValueError leaves all of them unshifted."
  },
  {
   "property": "C64",
   "status": "proved",
   "theorems": [
    "C64_release_windows_tile",
    "C64_odd_step_refuted"
   ],
   "note": "For an odd number of microseconds the half step is rounded and the windows do not meet."
  },
  {
   "property": "C65",
   "status": "proved",
   "theorems": [
    "C65_time_matches_step",
    "C65_zero_step_refuted"
   ],
   "note": "Except after assigning a time step of 0, which raises but stays."
  },
  {
   "property": "C66",
   "status": "proved",
   "theorems": [
    "C66_failing_step_never_skips",
    "C66_errors_are_reported",
    "C66_full_run_reports",
    "C66_full_run_reports_refuted"
   ],
   "note": "full_run takes a StopIteration raised by a component for the end of the run (C66_full_run_reports_refuted); any other error is reported."
  },
  {
   "property": "C67",
   "status": "proved",
   "theorems": [
    "C67_on_the_line",
    "C67_at_the_point"
   ],
   "note": ""
  },
  {
   "property": "C68",
   "status": "proved",
   "theorems": [
    "C68_custom_positions"
   ],
   "note": ""
  },
  {
   "property": "C69",
   "status": "partial",
   "theorems": [
    "C69_rewind_is_new_partial",
    "C69_same_release_partial",
    "C69_same_elements_partial",
    "C69_bulk_volume_partial",
    "C69_rewind_is_new_refuted"
   ],
   "note": "False for PointLineRelease: rewind keeps _previously_released, so bulk_init_volume of a continuous release accumulates over runs. Numbers, masses and positions are those of a new release."
  },
  {
   "property": "C70",
   "status": "partial",
   "theorems": [
    "C70_per_timestep_partial",
    "C70_per_timestep_refuted"
   ],
   "note": "True for Release; PointLineRelease does not hand num_per_timestep to its base class."
  },
  {
   "property": "C71",
   "status": "partial",
   "theorems": [
    "C71_backward_release_partial",
    "C71_backward_release_refuted"
   ],
   "note": "False: the count ignores the direction of time. Everything is released at once if the release time is not later than the first time asked for, nothing otherwise."
  },
  {
   "property": "C72",
   "status": "proved",
   "theorems": [
    "C72_moves_add_up",
    "C72_order_of_movers"
   ],
   "note": "Floats idealised as rationals."
  },
  {
   "property": "C73",
   "status": "partial",
   "theorems": [
    "C73_post_run_partial",
    "C73_last_step_refuted",
    "C73_day_refuted",
    "C73_backward_refuted"
   ],
   "note": "Proved for forward runs with time steps under a day and output_last_step on; each condition is needed."
  },
  {
   "property": "C74",
   "status": "proved",
   "theorems": [
    "C74_tests_agree",
    "C74_boundary_refuted"
   ],
   "note": "The second theorem shows that the condition is needed."
  },
  {
   "property": "C75",
   "status": "proved",
   "theorems": [
    "C75_triangle",
    "C75_fan",
    "C75_insideb"
   ],
   "note": ""
  },
  {
   "property": "C76",
   "status": "proved",
   "theorems": [
    "C76_picture",
    "C76_thin",
    "C76_answers",
    "C76_again",
    "C76_set"
   ],
   "note": ""
  },
  {
   "property": "C77",
   "status": "proved",
   "theorems": [
    "C77_weights",
    "C77_areas",
    "C77_volumes",
    "C77_triangles",
    "C77_starts",
    "C77_positions",
    "C77_positions_answers",
    "C77_everywhere"
   ],
   "note": "Triangulation and random draws are arbitrary inputs."
  },
  {
   "property": "C78",
   "status": "partial",
   "theorems": [
    "C78_partial",
    "C78_last",
    "C78_refuted"
   ],
   "note": "False as stated: a number out of range given to the constructor or after None makes the efficiency NaN."
  },
  {
   "property": "C79",
   "status": "partial",
   "theorems": [
    "C79_skim_partial",
    "C79_skim_exact",
    "C79_disperse_partial",
    "C79_burn_partial",
    "C79_burn_volume",
    "C79_skim_refuted"
   ],
   "note": "False when the window is within one step (C79_skim_refuted). Proved otherwise; for the burn from the step after marking."
  },
  {
   "property": "C80",
   "status": "proved",
   "theorems": [
    "C80_fate",
    "C80_deterministic",
    "C80_idempotent"
   ],
   "note": "Full statement."
  },
  {
   "property": "C81",
   "status": "proved",
   "theorems": [
    "C81_more_wind"
   ],
   "note": "Full statement."
  },
  {
   "property": "C82",
   "status": "proved",
   "theorems": [
    "C82_cut"
   ],
   "note": "Full statement."
  },
  {
   "property": "C83",
   "status": "proved",
   "theorems": [
    "C83_cut",
    "C83_area"
   ],
   "note": "Full statement."
  },
  {
   "property": "C84",
   "status": "partial",
   "theorems": [
    "C84_bounds_partial",
    "C84_monotone_partial",
    "C84_refuted"
   ],
   "note": "False as stated: just below a viscosity of 1e-4 the limit exceeds 1e-4 (by 1e-9) and then falls. Proved otherwise."
  },
  {
   "property": "C85",
   "status": "proved",
   "theorems": [
    "C85_first"
   ],
   "note": "Full statement."
  },
  {
   "property": "C86",
   "status": "proved",
   "theorems": [
    "C86_monotone",
    "C86_bounds"
   ],
   "note": "Full statement, for positive thickness and buoyancy."
  },
  {
   "property": "C87",
   "status": "proved",
   "theorems": [
    "C87_run",
    "C87_grows",
    "C87_begins",
    "C87_booked"
   ],
   "note": "Full statement, for oils whose largest fraction of water is in (0,1)."
  },
  {
   "property": "C88",
   "status": "partial",
   "theorems": [
    "C88_fay",
    "C88_langmuir_partial",
    "C88_langmuir_refuted"
   ],
   "note": "Proved for spreading, and for Langmuir cells if the wind is the same everywhere; false for Langmuir cells otherwise: the strongest wind over any spill is used for all."
  },
  {
   "property": "C89",
   "status": "proved",
   "theorems": [
    "C89_rk4",
    "C89_rk2",
    "C89_fraction_refuted"
   ],
   "note": "Full statement; the condition on the start is needed: from a start inside a second the later stages are evaluated at times counted from the start of the second (C89_fraction_refuted)."
  },
  {
   "property": "C90",
   "status": "proved",
   "theorems": [
    "C90_current",
    "C90_delay",
    "C90_simple",
    "C90_default"
   ],
   "note": "Full statement. In addition SimpleMover's default velocity is refused (C90_default)."
  },
  {
   "property": "C91",
   "status": "proved",
   "theorems": [
    "C91_current"
   ],
   "note": "Full statement."
  },
  {
   "property": "C92",
   "status": "partial",
   "theorems": [
    "C92_wind_partial",
    "C92_negative_refuted"
   ],
   "note": "Holds for winds with no component below min_val (the default, 0); a negative component is replaced by min_val (C92_negative_refuted)."
  },
  {
   "property": "C93",
   "status": "partial",
   "theorems": [
    "C93_drift_partial",
    "C93_mixed_refuted"
   ],
   "note": "Holds when all elements are in water or there is a single element; with a mix of statuses the call raises ValueError (C93_mixed_refuted)."
  },
  {
   "property": "C94",
   "status": "partial",
   "theorems": [
    "C94_turned",
    "C94_spreads",
    "C94_start_partial",
    "C94_light_refuted",
    "C94_pick"
   ],
   "note": "Winds of at least 1 m/s. A lighter wind is replaced by a random move that is not scaled by the time step (C94_light_refuted)."
  },
  {
   "property": "C95",
   "status": "partial",
   "theorems": [
    "C95_roundtrip_partial",
    "C95_saves_partial",
    "C95_data_stored",
    "C95_data_file_refuted",
    "C95_brace_refuted",
    "C95_hidden_refuted",
    "C95_json_lost_refuted",
    "C95_crowd_refuted"
   ],
   "note": "The full statement without conditions is false; each condition on names and data files has a refutation beside it. The attributes of one object are one value that survives json (to_dict/new_from_dict of the single classes are not modelled). Findings: two data files with the same last part lose one silently; a data file called like an object's json replaces it; names with braces raise; a root whose name begins with a dot is saved but not found; the 256th object of a name cannot be saved."
  },
  {
   "property": "C96",
   "status": "proved",
   "theorems": [
    "C96_interpolates",
    "C96_single",
    "C96_data",
    "C96_outside",
    "C96_at",
    "C96_several"
   ],
   "note": "Linear interpolation type (the only one the Python classes can set)."
  },
  {
   "property": "C97",
   "status": "partial",
   "theorems": [
    "C97_array",
    "C97_list_refuted"
   ],
   "note": "Proved for numpy arrays. False for a list of (time, value) pairs: only the form of the entries is checked, so an unordered list is accepted and gives values that are not in the data (C97_list_refuted)."
  },
  {
   "property": "C98",
   "status": "partial",
   "theorems": [
    "C98_average_partial",
    "C98_bounds_partial",
    "C98_calm_refuted"
   ],
   "note": "Proved when extrapolation is allowed or the model time is before the series. Otherwise the hours before the record count as calm (C98_calm_refuted)."
  },
  {
   "property": "C99",
   "status": "partial",
   "theorems": [
    "C99_set_get_partial",
    "C99_set_wind_data_partial",
    "C99_same_numbers",
    "C99_refused",
    "C99_uv_refuted"
   ],
   "note": "Proved for speed/direction in both spellings and for components given with the enumeration. False for components given with the string 'uv' in units other than m/s: the second component is not converted (C99_uv_refuted). Reals; the rounding to 14 decimals is not modelled."
  }
 ]
}