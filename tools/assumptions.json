{
"C01_iteration_is_insertion_order": [],
"C02_len_contains_iter_agree": [],
"C02_values_partial": [],
"C02_values_refuted": [],
"C03_lookup_agrees_with_iteration": [],
"C04_setitem_keyerror_refuted": [],
"C04_setitem_negative_refuted": [],
"C04_setitem_partial": [],
"C04_setitem_refuted": [],
"C05_callbacks_fire_exactly_once": [],
"C06_full_run": [],
"C06_steps_in_order": [],
"C07_constructed": [],
"C07_count_kept": [],
"C07_steps_cover_duration": [],
"C07_wrong_sign_refuted": [],
"C08_constructed_partial": [],
"C08_mirror_refuted": [],
"C08_mirrored_partial": [],
"C09_limits_refuted": [],
"C09_step_order": [],
"C09_substep_count": [],
"C09_substeps_tile": [],
"C100_assigned": [
"ClassicalDedekindReals.sig_not_dec",
"ClassicalDedekindReals.sig_forall_dec",
"FunctionalExtensionality.functional_extensionality_dep",
"Classical_Prop.classic"
],
"C100_components_refuted": [
"ClassicalDedekindReals.sig_not_dec",
"ClassicalDedekindReals.sig_forall_dec",
"FunctionalExtensionality.functional_extensionality_dep",
"Classical_Prop.classic"
],
"C100_refused_refuted": [
"ClassicalDedekindReals.sig_not_dec",
"ClassicalDedekindReals.sig_forall_dec",
"FunctionalExtensionality.functional_extensionality_dep",
"Classical_Prop.classic"
],
"C100_set_wind_data_refuted": [
"ClassicalDedekindReals.sig_not_dec",
"ClassicalDedekindReals.sig_forall_dec",
"FunctionalExtensionality.functional_extensionality_dep",
"Classical_Prop.classic"
],
"C100_units_refuted": [
"ClassicalDedekindReals.sig_not_dec",
"ClassicalDedekindReals.sig_forall_dec",
"FunctionalExtensionality.functional_extensionality_dep",
"Classical_Prop.classic"
],
"C101_partial": [
"ClassicalDedekindReals.sig_not_dec",
"ClassicalDedekindReals.sig_forall_dec",
"FunctionalExtensionality.functional_extensionality_dep"
],
"C101_refuted": [
"ClassicalDedekindReals.sig_not_dec",
"ClassicalDedekindReals.sig_forall_dec",
"FunctionalExtensionality.functional_extensionality_dep",
"Classical_Prop.classic"
],
"C102_refuted": [
"ClassicalDedekindReals.sig_not_dec",
"ClassicalDedekindReals.sig_forall_dec",
"FunctionalExtensionality.functional_extensionality_dep",
"Classical_Prop.classic"
],
"C102_shift_partial": [
"ClassicalDedekindReals.sig_not_dec",
"ClassicalDedekindReals.sig_forall_dec",
"FunctionalExtensionality.functional_extensionality_dep",
"Classical_Prop.classic"
],
"C102_unknown": [
"ClassicalDedekindReals.sig_not_dec",
"ClassicalDedekindReals.sig_forall_dec",
"FunctionalExtensionality.functional_extensionality_dep",
"Classical_Prop.classic"
],
"C103_half_refuted": [
"ClassicalDedekindReals.sig_not_dec",
"ClassicalDedekindReals.sig_forall_dec",
"FunctionalExtensionality.functional_extensionality_dep",
"Classical_Prop.classic"
],
"C103_nothing": [
"ClassicalDedekindReals.sig_not_dec",
"ClassicalDedekindReals.sig_forall_dec",
"FunctionalExtensionality.functional_extensionality_dep",
"Classical_Prop.classic"
],
"C103_scaled_partial": [
"ClassicalDedekindReals.sig_not_dec",
"ClassicalDedekindReals.sig_forall_dec",
"FunctionalExtensionality.functional_extensionality_dep",
"Classical_Prop.classic"
],
"C103_small_refuted": [
"ClassicalDedekindReals.sig_not_dec",
"ClassicalDedekindReals.sig_forall_dec",
"FunctionalExtensionality.functional_extensionality_dep",
"Classical_Prop.classic"
],
"C104_in_range_partial": [
"ClassicalDedekindReals.sig_not_dec",
"ClassicalDedekindReals.sig_forall_dec",
"FunctionalExtensionality.functional_extensionality_dep"
],
"C104_persistent": [
"ClassicalDedekindReals.sig_not_dec",
"ClassicalDedekindReals.sig_forall_dec",
"FunctionalExtensionality.functional_extensionality_dep"
],
"C104_released": [
"ClassicalDedekindReals.sig_not_dec",
"ClassicalDedekindReals.sig_forall_dec",
"FunctionalExtensionality.functional_extensionality_dep"
],
"C104_short_step_refuted": [
"ClassicalDedekindReals.sig_not_dec",
"ClassicalDedekindReals.sig_forall_dec",
"FunctionalExtensionality.functional_extensionality_dep"
],
"C104_swapped": [
"ClassicalDedekindReals.sig_not_dec",
"ClassicalDedekindReals.sig_forall_dec",
"FunctionalExtensionality.functional_extensionality_dep"
],
"C105_long_persistence_refuted": [
"ClassicalDedekindReals.sig_not_dec",
"ClassicalDedekindReals.sig_forall_dec",
"FunctionalExtensionality.functional_extensionality_dep"
],
"C105_refused": [
"ClassicalDedekindReals.sig_not_dec",
"ClassicalDedekindReals.sig_forall_dec",
"FunctionalExtensionality.functional_extensionality_dep"
],
"C105_spread_partial": [
"ClassicalDedekindReals.sig_not_dec",
"ClassicalDedekindReals.sig_forall_dec",
"FunctionalExtensionality.functional_extensionality_dep"
],
"C106_backwards": [
"ClassicalDedekindReals.sig_not_dec",
"ClassicalDedekindReals.sig_forall_dec",
"FunctionalExtensionality.functional_extensionality_dep"
],
"C106_first_step": [
"ClassicalDedekindReals.sig_not_dec",
"ClassicalDedekindReals.sig_forall_dec",
"FunctionalExtensionality.functional_extensionality_dep"
],
"C106_reach": [
"ClassicalDedekindReals.sig_not_dec",
"ClassicalDedekindReals.sig_forall_dec",
"FunctionalExtensionality.functional_extensionality_dep",
"Classical_Prop.classic"
],
"C106_settings": [
"ClassicalDedekindReals.sig_not_dec",
"ClassicalDedekindReals.sig_forall_dec",
"FunctionalExtensionality.functional_extensionality_dep"
],
"C106_uncertain": [
"ClassicalDedekindReals.sig_not_dec",
"ClassicalDedekindReals.sig_forall_dec",
"FunctionalExtensionality.functional_extensionality_dep"
],
"C107_horizontal": [
"ClassicalDedekindReals.sig_not_dec",
"ClassicalDedekindReals.sig_forall_dec",
"FunctionalExtensionality.functional_extensionality_dep",
"Classical_Prop.classic"
],
"C107_stays_at_surface_refuted": [
"ClassicalDedekindReals.sig_not_dec",
"ClassicalDedekindReals.sig_forall_dec",
"FunctionalExtensionality.functional_extensionality_dep"
],
"C107_submerged_partial": [
"ClassicalDedekindReals.sig_not_dec",
"ClassicalDedekindReals.sig_forall_dec",
"FunctionalExtensionality.functional_extensionality_dep"
],
"C107_vertical": [
"ClassicalDedekindReals.sig_not_dec",
"ClassicalDedekindReals.sig_forall_dec",
"FunctionalExtensionality.functional_extensionality_dep"
],
"C108_layer_partial": [
"ClassicalDedekindReals.sig_not_dec",
"ClassicalDedekindReals.sig_forall_dec",
"FunctionalExtensionality.functional_extensionality_dep"
],
"C108_long_step_refuted": [
"ClassicalDedekindReals.sig_not_dec",
"ClassicalDedekindReals.sig_forall_dec",
"FunctionalExtensionality.functional_extensionality_dep"
],
"C109_continuous": [
"ClassicalDedekindReals.sig_not_dec",
"ClassicalDedekindReals.sig_forall_dec",
"FunctionalExtensionality.functional_extensionality_dep"
],
"C109_dense_refuted": [
"ClassicalDedekindReals.sig_not_dec",
"ClassicalDedekindReals.sig_forall_dec",
"FunctionalExtensionality.functional_extensionality_dep"
],
"C109_laws": [
"ClassicalDedekindReals.sig_not_dec",
"ClassicalDedekindReals.sig_forall_dec",
"FunctionalExtensionality.functional_extensionality_dep"
],
"C109_monotone": [
"ClassicalDedekindReals.sig_not_dec",
"ClassicalDedekindReals.sig_forall_dec",
"FunctionalExtensionality.functional_extensionality_dep"
],
"C10_change_rewinds_partial": [],
"C10_change_rewinds_refuted": [],
"C10_next_step_is_zero_partial": [],
"C110_backwards_refuted": [
"ClassicalDedekindReals.sig_not_dec",
"ClassicalDedekindReals.sig_forall_dec",
"FunctionalExtensionality.functional_extensionality_dep"
],
"C110_forwards": [
"ClassicalDedekindReals.sig_not_dec",
"ClassicalDedekindReals.sig_forall_dec",
"FunctionalExtensionality.functional_extensionality_dep"
],
"C110_rise_partial": [
"ClassicalDedekindReals.sig_forall_dec",
"FunctionalExtensionality.functional_extensionality_dep"
],
"C111_falls_dry_refuted": [],
"C111_land_first": [],
"C111_run_partial": [],
"C111_simple": [],
"C111_stays": [],
"C112_base": [],
"C112_mass": [],
"C112_transparent": [],
"C113_fraction_refuted": [],
"C113_other_texts_refuted": [],
"C113_partial": [],
"C113_precedence_refuted": [],
"C113_whole_part": [],
"C114_arrays_refuted": [],
"C114_take_partial": [],
"C114_take_refuted": [],
"C115_density_partial": [],
"C115_density_refuted": [],
"C116_disperse": [],
"C117_plan_partial": [],
"C117_plan_refuted": [],
"C118_volumes_partial": [],
"C118_volumes_refuted": [],
"C119_accounts": [],
"C11_active_iff_midpoint": [],
"C11_adjacent_windows_split": [],
"C11_midpoint": [],
"C11_window_must_be_proper": [],
"C120_rates": [],
"C121_fill_refuted": [],
"C121_step_partial": [],
"C122_active": [],
"C122_active_refuted": [],
"C122_index": [],
"C122_next": [],
"C122_time_to_next": [],
"C123_rerun_partial": [],
"C123_rerun_refuted": [],
"C124_cold": [],
"C124_data_only": [],
"C124_measured": [],
"C124_warm": [],
"C125_continuous_refuted": [],
"C125_segment_partial": [],
"C126_inert": [],
"C126_new_partial": [],
"C126_none_refuted": [],
"C126_water_refuted": [],
"C127_empty_refuted": [],
"C127_heavier": [],
"C127_recalc_partial": [],
"C128_average": [],
"C128_parts": [],
"C128_released": [],
"C128_stale_refuted": [],
"C129_falls_partial": [
"ClassicalDedekindReals.sig_not_dec",
"ClassicalDedekindReals.sig_forall_dec",
"FunctionalExtensionality.functional_extensionality_dep",
"Classical_Prop.classic"
],
"C129_kept": [
"ClassicalDedekindReals.sig_not_dec",
"ClassicalDedekindReals.sig_forall_dec",
"FunctionalExtensionality.functional_extensionality_dep",
"Classical_Prop.classic"
],
"C129_no_data_refuted": [
"ClassicalDedekindReals.sig_not_dec",
"ClassicalDedekindReals.sig_forall_dec",
"FunctionalExtensionality.functional_extensionality_dep",
"Classical_Prop.classic"
],
"C129_same_temperature_refuted": [
"ClassicalDedekindReals.sig_not_dec",
"ClassicalDedekindReals.sig_forall_dec",
"FunctionalExtensionality.functional_extensionality_dep",
"Classical_Prop.classic"
],
"C129_stale_refuted": [
"ClassicalDedekindReals.sig_not_dec",
"ClassicalDedekindReals.sig_forall_dec",
"FunctionalExtensionality.functional_extensionality_dep",
"Classical_Prop.classic"
],
"C129_through": [
"ClassicalDedekindReals.sig_not_dec",
"ClassicalDedekindReals.sig_forall_dec",
"FunctionalExtensionality.functional_extensionality_dep",
"Classical_Prop.classic"
],
"C12_operators_agree": [],
"C12_total_order": [],
"C130_container": [
"ClassicalDedekindReals.sig_not_dec",
"ClassicalDedekindReals.sig_forall_dec",
"FunctionalExtensionality.functional_extensionality_dep",
"Classical_Prop.classic"
],
"C130_update_partial": [
"ClassicalDedekindReals.sig_not_dec",
"ClassicalDedekindReals.sig_forall_dec",
"FunctionalExtensionality.functional_extensionality_dep",
"Classical_Prop.classic"
],
"C130_water_refuted": [
"ClassicalDedekindReals.sig_not_dec",
"ClassicalDedekindReals.sig_forall_dec",
"FunctionalExtensionality.functional_extensionality_dep",
"Classical_Prop.classic"
],
"C131_boiling_partial": [
"ClassicalDedekindReals.sig_not_dec",
"ClassicalDedekindReals.sig_forall_dec",
"FunctionalExtensionality.functional_extensionality_dep",
"Classical_Prop.classic"
],
"C131_cache_partial": [
"ClassicalDedekindReals.sig_not_dec",
"ClassicalDedekindReals.sig_forall_dec",
"FunctionalExtensionality.functional_extensionality_dep",
"Classical_Prop.classic"
],
"C131_heavy_refuted": [
"ClassicalDedekindReals.sig_not_dec",
"ClassicalDedekindReals.sig_forall_dec",
"FunctionalExtensionality.functional_extensionality_dep",
"Classical_Prop.classic"
],
"C131_stale_refuted": [
"ClassicalDedekindReals.sig_not_dec",
"ClassicalDedekindReals.sig_forall_dec",
"FunctionalExtensionality.functional_extensionality_dep",
"Classical_Prop.classic"
],
"C132_again": [],
"C132_attached": [],
"C132_off": [],
"C132_stale_refuted": [],
"C133_again": [],
"C133_idle": [],
"C133_switched_partial": [],
"C133_two_refuted": [],
"C133_user_refuted": [],
"C134_add": [],
"C134_find": [],
"C134_quash_partial": [],
"C134_quash_refuted": [],
"C134_water": [],
"C135_begin_partial": [],
"C135_own_refuted": [],
"C135_validate": [],
"C135_waves_refuted": [],
"C136_messages": [],
"C136_refuses": [],
"C136_signs_refuted": [],
"C136_times": [],
"C137_send_back": [],
"C138_frame": [],
"C139_nested_refuted": [],
"C139_new": [],
"C139_written": [],
"C13_can_be_prepared": [],
"C13_constructed": [],
"C13_release_count": [],
"C140_flag_partial": [],
"C140_flag_refuted": [],
"C141_atomic_refuted": [],
"C141_failed_partial": [],
"C142_equal": [],
"C142_no_error_partial": [],
"C142_no_error_refuted": [],
"C143_copy_partial": [],
"C143_nan_refuted": [],
"C144_exact_partial": [],
"C144_symmetric_partial": [],
"C144_symmetric_refuted": [],
"C144_transitive_partial": [],
"C144_transitive_refuted": [],
"C145_empty": [],
"C145_list_given_partial": [],
"C145_lists": [],
"C145_other_class_refuted": [],
"C146_again": [],
"C146_late_balance_refuted": [],
"C146_read_back": [],
"C146_uncertain_partial": [],
"C146_uncertain_refuted": [],
"C147_backward_first": [],
"C147_backward_refuted": [],
"C147_exact_partial": [],
"C147_nearest_partial": [],
"C148_negative": [],
"C148_only": [],
"C148_too_large": [],
"C148_too_small_refuted": [],
"C149_first_partial": [],
"C149_read_most_refuted": [],
"C149_second_run_refuted": [],
"C149_switch_refuted": [],
"C149_usable": [],
"C14_partition_free": [],
"C14_total_released": [],
"C150_density_partial": [
"ClassicalDedekindReals.sig_forall_dec",
"FunctionalExtensionality.functional_extensionality_dep"
],
"C150_density_refuted": [
"ClassicalDedekindReals.sig_forall_dec",
"FunctionalExtensionality.functional_extensionality_dep"
],
"C150_new": [
"ClassicalDedekindReals.sig_forall_dec",
"FunctionalExtensionality.functional_extensionality_dep"
],
"C150_points": [
"ClassicalDedekindReals.sig_forall_dec",
"FunctionalExtensionality.functional_extensionality_dep"
],
"C150_restate": [
"ClassicalDedekindReals.sig_forall_dec",
"FunctionalExtensionality.functional_extensionality_dep"
],
"C150_stored": [
"ClassicalDedekindReals.sig_forall_dec",
"FunctionalExtensionality.functional_extensionality_dep"
],
"C150_units_refuted": [],
"C151_bounds": [
"ClassicalDedekindReals.sig_not_dec",
"ClassicalDedekindReals.sig_forall_dec",
"FunctionalExtensionality.functional_extensionality_dep",
"Classical_Prop.classic"
],
"C151_fetch": [
"ClassicalDedekindReals.sig_not_dec",
"ClassicalDedekindReals.sig_forall_dec",
"FunctionalExtensionality.functional_extensionality_dep",
"Classical_Prop.classic"
],
"C151_wind": [
"ClassicalDedekindReals.sig_not_dec",
"ClassicalDedekindReals.sig_forall_dec",
"FunctionalExtensionality.functional_extensionality_dep",
"Classical_Prop.classic"
],
"C151_wind_fetch_partial": [
"ClassicalDedekindReals.sig_not_dec",
"ClassicalDedekindReals.sig_forall_dec",
"FunctionalExtensionality.functional_extensionality_dep",
"Classical_Prop.classic"
],
"C151_wind_fetch_refuted": [
"ClassicalDedekindReals.sig_not_dec",
"ClassicalDedekindReals.sig_forall_dec",
"FunctionalExtensionality.functional_extensionality_dep",
"Classical_Prop.classic"
],
"C152_decay": [
"ClassicalDedekindReals.sig_forall_dec",
"FunctionalExtensionality.functional_extensionality_dep"
],
"C152_fraction": [
"ClassicalDedekindReals.sig_forall_dec",
"FunctionalExtensionality.functional_extensionality_dep"
],
"C152_no_jump": [
"ClassicalDedekindReals.sig_forall_dec",
"FunctionalExtensionality.functional_extensionality_dep"
],
"C152_salt": [
"ClassicalDedekindReals.sig_forall_dec",
"FunctionalExtensionality.functional_extensionality_dep"
],
"C152_wind": [
"ClassicalDedekindReals.sig_forall_dec",
"FunctionalExtensionality.functional_extensionality_dep"
],
"C153_emulsification": [
"ClassicalDedekindReals.sig_not_dec",
"ClassicalDedekindReals.sig_forall_dec",
"FunctionalExtensionality.functional_extensionality_dep",
"Classical_Prop.classic"
],
"C153_given": [
"ClassicalDedekindReals.sig_not_dec",
"ClassicalDedekindReals.sig_forall_dec",
"FunctionalExtensionality.functional_extensionality_dep",
"Classical_Prop.classic"
],
"C153_same_waves": [
"ClassicalDedekindReals.sig_not_dec",
"ClassicalDedekindReals.sig_forall_dec",
"FunctionalExtensionality.functional_extensionality_dep",
"Classical_Prop.classic"
],
"C153_wind_of_waves": [
"ClassicalDedekindReals.sig_not_dec",
"ClassicalDedekindReals.sig_forall_dec",
"FunctionalExtensionality.functional_extensionality_dep",
"Classical_Prop.classic"
],
"C154_calm": [
"ClassicalDedekindReals.sig_not_dec",
"ClassicalDedekindReals.sig_forall_dec",
"FunctionalExtensionality.functional_extensionality_dep",
"Classical_Prop.classic"
],
"C154_given": [
"ClassicalDedekindReals.sig_not_dec",
"ClassicalDedekindReals.sig_forall_dec",
"FunctionalExtensionality.functional_extensionality_dep",
"Classical_Prop.classic"
],
"C154_stress_refuted": [
"ClassicalDedekindReals.sig_not_dec",
"ClassicalDedekindReals.sig_forall_dec",
"FunctionalExtensionality.functional_extensionality_dep",
"Classical_Prop.classic"
],
"C154_value": [
"ClassicalDedekindReals.sig_not_dec",
"ClassicalDedekindReals.sig_forall_dec",
"FunctionalExtensionality.functional_extensionality_dep",
"Classical_Prop.classic"
],
"C154_wind_partial": [
"ClassicalDedekindReals.sig_not_dec",
"ClassicalDedekindReals.sig_forall_dec",
"FunctionalExtensionality.functional_extensionality_dep",
"Classical_Prop.classic"
],
"C155_cells": [],
"C155_nodes_partial": [],
"C155_one_row_refuted": [],
"C155_seconds_refuted": [],
"C155_unequal_refuted": [],
"C155_units_refuted": [],
"C156_blank_refuted": [],
"C156_cells": [],
"C156_nodes": [],
"C156_outside": [],
"C156_row_zero_refuted": [],
"C157_cells": [],
"C157_contents": [],
"C157_extrapolation_refuted": [],
"C157_nodes": [],
"C158_archive_partial": [],
"C158_broken": [],
"C158_lost_refuted": [],
"C159_loose_partial": [],
"C159_others_refuted": [],
"C159_second_refuted": [],
"C15_mass_shared": [],
"C160_contents": [],
"C160_time": [],
"C161_distinct": [],
"C161_hours": [],
"C161_on_refuted": [],
"C161_rows": [],
"C161_short_refuted": [],
"C162_files": [],
"C162_forecast_refuted": [],
"C162_returned": [],
"C162_round_refuted": [],
"C162_rounded": [],
"C163_cache_refuted": [],
"C163_deaf_refuted": [],
"C163_never_refuted": [],
"C163_off_partial": [],
"C163_on": [],
"C164_backward_refuted": [],
"C164_broken": [],
"C164_file": [],
"C164_gap_refuted": [],
"C164_layer": [],
"C164_meet_partial": [],
"C164_stopped": [],
"C165_count_partial": [],
"C165_rest_refuted": [],
"C166_all": [],
"C166_counter_refuted": [],
"C166_endless_refuted": [],
"C166_none_refuted": [],
"C166_place_partial": [],
"C166_run_refuted": [],
"C166_steps": [],
"C167_default": [],
"C167_mass": [],
"C168_negative": [],
"C168_splot": [],
"C169_algorithm": [],
"C169_concentration": [],
"C169_kernel": [],
"C169_place_refuted": [],
"C16_arrays_aligned": [],
"C16_bad_split_refuted": [],
"C16_new_array_refuted": [],
"C16_plain_runs_aligned": [],
"C16_release_appends": [],
"C16_release_count": [],
"C16_view_again_refuted": [],
"C170_contours": [],
"C170_cover": [],
"C170_keys_refuted": [],
"C170_single_refuted": [],
"C171_separate": [],
"C171_together": [],
"C172_endless_refuted": [],
"C172_ends": [],
"C172_sign_refuted": [
"ClassicalDedekindReals.sig_not_dec",
"ClassicalDedekindReals.sig_forall_dec",
"FunctionalExtensionality.functional_extensionality_dep",
"Classical_Prop.classic"
],
"C172_within": [],
"C173_accepted": [
"ClassicalDedekindReals.sig_not_dec",
"ClassicalDedekindReals.sig_forall_dec",
"FunctionalExtensionality.functional_extensionality_dep",
"Classical_Prop.classic"
],
"C173_equal_refuted": [
"ClassicalDedekindReals.sig_not_dec",
"ClassicalDedekindReals.sig_forall_dec",
"FunctionalExtensionality.functional_extensionality_dep",
"Classical_Prop.classic"
],
"C173_errors": [
"ClassicalDedekindReals.sig_not_dec",
"ClassicalDedekindReals.sig_forall_dec",
"FunctionalExtensionality.functional_extensionality_dep",
"Classical_Prop.classic"
],
"C173_share_partial": [
"ClassicalDedekindReals.sig_not_dec",
"ClassicalDedekindReals.sig_forall_dec",
"FunctionalExtensionality.functional_extensionality_dep",
"Classical_Prop.classic"
],
"C174_density": [
"ClassicalDedekindReals.sig_not_dec",
"ClassicalDedekindReals.sig_forall_dec",
"FunctionalExtensionality.functional_extensionality_dep",
"Classical_Prop.classic"
],
"C174_inverse": [
"ClassicalDedekindReals.sig_not_dec",
"ClassicalDedekindReals.sig_forall_dec",
"FunctionalExtensionality.functional_extensionality_dep",
"Classical_Prop.classic"
],
"C174_mean": [
"ClassicalDedekindReals.sig_not_dec",
"ClassicalDedekindReals.sig_forall_dec",
"FunctionalExtensionality.functional_extensionality_dep"
],
"C174_range_refuted": [
"ClassicalDedekindReals.sig_not_dec",
"ClassicalDedekindReals.sig_forall_dec",
"FunctionalExtensionality.functional_extensionality_dep",
"Classical_Prop.classic"
],
"C175_masses_partial": [
"ClassicalDedekindReals.sig_not_dec",
"ClassicalDedekindReals.sig_forall_dec",
"FunctionalExtensionality.functional_extensionality_dep"
],
"C175_numpy_refuted": [
"ClassicalDedekindReals.sig_not_dec",
"ClassicalDedekindReals.sig_forall_dec",
"FunctionalExtensionality.functional_extensionality_dep"
],
"C176_calm_refuted": [
"ClassicalDedekindReals.sig_not_dec",
"ClassicalDedekindReals.sig_forall_dec",
"FunctionalExtensionality.functional_extensionality_dep"
],
"C176_fails": [
"ClassicalDedekindReals.sig_not_dec",
"ClassicalDedekindReals.sig_forall_dec",
"FunctionalExtensionality.functional_extensionality_dep"
],
"C176_times": [
"ClassicalDedekindReals.sig_forall_dec",
"FunctionalExtensionality.functional_extensionality_dep"
],
"C177_company_refuted": [
"ClassicalDedekindReals.sig_not_dec",
"ClassicalDedekindReals.sig_forall_dec",
"FunctionalExtensionality.functional_extensionality_dep",
"Classical_Prop.classic"
],
"C177_own_partial": [
"ClassicalDedekindReals.sig_not_dec",
"ClassicalDedekindReals.sig_forall_dec",
"FunctionalExtensionality.functional_extensionality_dep"
],
"C178_delete_partial": [],
"C178_delete_refuted": [],
"C178_exclusive": [],
"C178_new": [],
"C178_refused": [],
"C178_set": [],
"C178_thick_refuted": [],
"C179_accepted_refuted": [],
"C179_area_refuted": [],
"C179_coordinates": [],
"C179_refused": [],
"C179_shares_partial": [],
"C17_failing_release_refuted": [],
"C17_ids_increasing_partial": [],
"C17_never_reused_partial": [],
"C17_split_refuted": [],
"C180_inside": [],
"C180_number": [],
"C181_even": [],
"C181_inside": [],
"C182_narrow_refuted": [],
"C182_resolution_partial": [],
"C182_wide_refuted": [],
"C183_grid": [],
"C183_negative_refuted": [],
"C184_carry": [],
"C184_file_partial": [],
"C184_given": [],
"C184_null_refuted": [],
"C184_times_refuted": [],
"C185_instant_refuted": [],
"C185_shift_partial": [],
"C185_unknown": [],
"C186_error": [],
"C186_figures": [],
"C186_refused": [],
"C186_written": [],
"C187_distinct_refuted": [],
"C187_order": [],
"C187_stable": [],
"C188_copy": [],
"C188_mass_partial": [],
"C188_mass_refuted": [],
"C188_refused": [],
"C189_accepted": [],
"C189_round_trip": [],
"C189_subsecond_refuted": [],
"C18_removes_the_marked": [],
"C190_instant_partial": [],
"C190_round_trip": [],
"C190_zone_refuted": [],
"C191_exact": [],
"C191_long_refuted": [],
"C192_base": [],
"C192_collision_refuted": [],
"C192_list_refuted": [],
"C192_round_trip": [],
"C193_given": [],
"C193_kept_partial": [],
"C193_made": [],
"C193_makes": [],
"C193_negative": [],
"C193_shared_refuted": [],
"C194_back": [],
"C194_kept": [],
"C194_refused": [],
"C195_mass_partial": [],
"C195_volume_refuted": [],
"C196_mass_partial": [],
"C196_mass_refuted": [],
"C196_number": [],
"C196_number_given": [],
"C197_back_refuted": [],
"C197_off": [],
"C197_shifted": [],
"C197_times": [],
"C198_negative_refuted": [],
"C198_one_partial": [],
"C198_one_refuted": [],
"C198_set": [],
"C199_asked": [],
"C199_kept_partial": [],
"C199_makes": [],
"C199_refused": [],
"C199_shared_refuted": [],
"C199_substance": [],
"C19_read_back_partial": [],
"C19_stale_view_refuted": [],
"C19_view_rows_partial": [],
"C19_write_back_partial": [],
"C200_adding": [],
"C200_adding_env": [],
"C200_brought_partial": [],
"C200_constructor": [],
"C200_constructor_refuted": [],
"C200_later_refuted": [],
"C200_others": [],
"C201_environment": [],
"C201_lists": [],
"C201_self": [],
"C201_time_partial": [],
"C201_time_refuted": [],
"C201_twice": [],
"C202_class": [],
"C202_contains": [],
"C202_found": [],
"C202_once": [],
"C202_property": [],
"C202_removed": [],
"C202_replaced": [],
"C203_names": [],
"C203_refused": [],
"C203_standard": [],
"C203_text_refuted": [],
"C204_again": [],
"C204_newer_refuted": [],
"C204_same": [],
"C204_version": [],
"C205_files_partial": [],
"C205_kept": [],
"C205_names": [],
"C205_two_refuted": [],
"C206_names": [],
"C206_redo_partial": [],
"C206_torn_refuted": [],
"C207_id_refuted": [],
"C207_order": [],
"C207_redo_refuted": [],
"C207_shared_refuted": [],
"C207_windages_partial": [],
"C208_files": [],
"C208_oil_refuted": [],
"C208_redo_refuted": [],
"C208_substance_partial": [],
"C208_two_refuted": [],
"C209_pairs_partial": [],
"C209_twice_refuted": [],
"C20_exact_mass_refuted": [],
"C20_negative_mass_refuted": [],
"C20_split_errors": [],
"C20_split_partial": [],
"C210_all": [],
"C210_history": [],
"C210_one": [],
"C210_refused": [],
"C210_same": [],
"C211_exception_refuted": [],
"C211_kept": [],
"C211_late": [],
"C211_lost_refuted": [],
"C211_stopped": [],
"C211_timeout_refuted": [],
"C211_turn_refuted": [],
"C212_default_refuted": [],
"C212_grid_refuted": [],
"C212_made_partial": [],
"C212_once_partial": [],
"C213_earlier": [],
"C213_kept": [],
"C213_linked_partial": [],
"C213_wrong_refuted": [],
"C214_columns_refuted": [],
"C214_contours_partial": [],
"C214_covered_partial": [],
"C214_none": [],
"C214_once_partial": [],
"C214_single_refuted": [],
"C214_test": [],
"C214_twice_refuted": [],
"C215_drawn": [],
"C215_empty": [],
"C215_hulls": [],
"C216_refused": [],
"C216_styles": [],
"C217_bounds_refuted": [],
"C217_dir_refuted": [],
"C217_no_bounds": [],
"C217_records_partial": [],
"C218_one_meaning": [],
"C218_read_partial": [],
"C218_thin_refuted": [],
"C218_type": [],
"C219_comma_refuted": [],
"C219_header_partial": [],
"C219_one_refuted": [],
"C219_only_value": [],
"C219_short_partial": [],
"C219_zero_partial": [],
"C21_copies_partial": [],
"C21_lockstep_partial": [],
"C21_lockstep_refuted": [],
"C21_rewind_restores": [],
"C21_setitem_refuted": [],
"C21_switch_refuted": [],
"C21_twice_refuted": [],
"C220_dots_refuted": [],
"C220_offset": [],
"C220_zip_partial": [],
"C221_bundle_refuted": [],
"C221_plain_partial": [],
"C221_switched": [],
"C221_told_refuted": [],
"C222_kind_partial": [],
"C222_new_partial": [],
"C222_new_refused": [],
"C222_short_refuted": [],
"C222_zero_refuted": [],
"C223_address": [],
"C223_crash_partial": [],
"C223_crash_refuted": [],
"C223_folder": [],
"C223_get_partial": [],
"C223_refused": [],
"C223_there": [],
"C224_hours_refuted": [],
"C224_new": [],
"C224_run": [],
"C224_set": [],
"C224_steady_partial": [],
"C224_step": [],
"C224_wind_refuted": [],
"C225_lacks_refuted": [],
"C225_off": [],
"C225_refused_refuted": [],
"C225_run_partial": [],
"C225_told": [],
"C225_uncertain_partial": [],
"C226_alone_refuted": [],
"C226_read_only": [],
"C226_refused": [],
"C226_told_partial": [],
"C226_whole_partial": [],
"C22_disperse_partial": [],
"C22_disperse_short": [],
"C22_off": [],
"C22_refuted": [],
"C22_skim_partial": [],
"C22_skim_short": [],
"C22_substeps_refuted": [],
"C23_burn_marks": [],
"C23_burn_once": [],
"C23_disperse_marks": [],
"C23_disperse_once": [],
"C23_marking_partial": [],
"C23_skim_marks": [],
"C23_skimmer_again_refuted": [],
"C23_zero_refuted": [],
"C24_burn": [],
"C24_disperse": [],
"C24_inactive": [],
"C24_none_efficiency_refuted": [],
"C24_skim": [],
"C24_two_dispersions_refuted": [],
"C25_beaching": [],
"C25_beaching_inactive": [],
"C25_biodegradation": [
"ClassicalDedekindReals.sig_not_dec",
"ClassicalDedekindReals.sig_forall_dec",
"FunctionalExtensionality.functional_extensionality_dep",
"Classical_Prop.classic"
],
"C25_dispersion": [
"ClassicalDedekindReals.sig_not_dec",
"ClassicalDedekindReals.sig_forall_dec",
"FunctionalExtensionality.functional_extensionality_dep",
"Classical_Prop.classic"
],
"C25_evaporation": [
"ClassicalDedekindReals.sig_not_dec",
"ClassicalDedekindReals.sig_forall_dec",
"FunctionalExtensionality.functional_extensionality_dep",
"Classical_Prop.classic"
],
"C25_evaporation_fractions": [
"ClassicalDedekindReals.sig_not_dec",
"ClassicalDedekindReals.sig_forall_dec",
"FunctionalExtensionality.functional_extensionality_dep",
"Classical_Prop.classic"
],
"C25_halflife_partial": [
"ClassicalDedekindReals.sig_not_dec",
"ClassicalDedekindReals.sig_forall_dec",
"FunctionalExtensionality.functional_extensionality_dep",
"Classical_Prop.classic"
],
"C25_halflife_refuted": [
"ClassicalDedekindReals.sig_not_dec",
"ClassicalDedekindReals.sig_forall_dec",
"FunctionalExtensionality.functional_extensionality_dep",
"Classical_Prop.classic"
],
"C25_sinking_refuted": [
"ClassicalDedekindReals.sig_not_dec",
"ClassicalDedekindReals.sig_forall_dec",
"FunctionalExtensionality.functional_extensionality_dep",
"Classical_Prop.classic"
],
"C26_add": [
"ClassicalDedekindReals.sig_not_dec",
"ClassicalDedekindReals.sig_forall_dec",
"FunctionalExtensionality.functional_extensionality_dep",
"Classical_Prop.classic"
],
"C26_half": [
"ClassicalDedekindReals.sig_not_dec",
"ClassicalDedekindReals.sig_forall_dec",
"FunctionalExtensionality.functional_extensionality_dep",
"Classical_Prop.classic"
],
"C26_steps": [
"ClassicalDedekindReals.sig_not_dec",
"ClassicalDedekindReals.sig_forall_dec",
"FunctionalExtensionality.functional_extensionality_dep",
"Classical_Prop.classic"
],
"C27_run": [
"ClassicalDedekindReals.sig_not_dec",
"ClassicalDedekindReals.sig_forall_dec",
"FunctionalExtensionality.functional_extensionality_dep",
"Classical_Prop.classic"
],
"C27_step": [
"ClassicalDedekindReals.sig_not_dec",
"ClassicalDedekindReals.sig_forall_dec",
"FunctionalExtensionality.functional_extensionality_dep",
"Classical_Prop.classic"
],
"C27_waits": [
"ClassicalDedekindReals.sig_not_dec",
"ClassicalDedekindReals.sig_forall_dec",
"FunctionalExtensionality.functional_extensionality_dep",
"Classical_Prop.classic"
],
"C28_coverage": [
"ClassicalDedekindReals.sig_not_dec",
"ClassicalDedekindReals.sig_forall_dec",
"FunctionalExtensionality.functional_extensionality_dep",
"Classical_Prop.classic"
],
"C28_weather": [
"ClassicalDedekindReals.sig_not_dec",
"ClassicalDedekindReals.sig_forall_dec",
"FunctionalExtensionality.functional_extensionality_dep",
"Classical_Prop.classic"
],
"C29_ordered": [],
"C29_unique": [],
"C29_unlisted": [],
"C30_walk_terminates_and_is_straight": [],
"C31_hit_is_first_land": [],
"C31_no_land_unnoticed": [],
"C32_layered_never_reads_outside": [],
"C32_never_reads_outside": [],
"C33_layered_agrees_refuted": [],
"C33_layered_partial": [],
"C33_layered_visited_partial": [],
"C34_coarse_cell_iff_block_has_land": [],
"C35_beached_does_not_drift": [],
"C35_beaching": [],
"C36_refloating": [],
"C37_off_map_mass_booked_once_partial": [],
"C37_off_map_mass_booked_once_refuted": [],
"C38_in_water_refuted": [],
"C38_land_queries_agree_partial": [],
"C38_land_queries_agree_refuted": [],
"C39_directory_refuted": [],
"C39_disabled_refuted": [],
"C39_load_partial": [],
"C39_names_refuted": [],
"C39_save_partial": [],
"C39_stale_refuted": [],
"C40_anchor": [],
"C40_every_step_refuted": [],
"C40_interval": [],
"C40_schedule_partial": [],
"C40_subsecond_refuted": [],
"C41_backward_partial": [],
"C41_backward_refuted": [],
"C41_start_refuted": [],
"C42_clash_refuted": [],
"C42_complete": [],
"C42_confined": [],
"C42_load": [],
"C42_load_bare": [],
"C42_update_complete": [],
"C42_update_confined": [],
"C42_update_text_refuted": [],
"C43_hidden_json_refuted": [],
"C43_no_parent": [],
"C43_valid_iff": [],
"C44_collision_refuted": [],
"C44_falsy_refuted": [],
"C44_named_partial": [],
"C44_reference_partial": [],
"C44_stable_partial": [],
"C45_answers": [],
"C45_closing": [],
"C45_repetition": [],
"C45_reversal": [],
"C45_rotation": [],
"C46_chord": [],
"C47_bounding_box": [],
"C48_area": [],
"C48_convex": [],
"C48_flat": [],
"C48_reversal": [],
"C48_rotation": [],
"C48_translation": [],
"C49_append": [],
"C49_equality_partial": [],
"C49_equality_refuted": [],
"C49_every_history": [],
"C49_from_data_refuted": [],
"C49_set": [],
"C50_bbarray": [],
"C50_bbarray_null_refuted": [],
"C50_constructor": [],
"C50_corners": [],
"C50_equality": [],
"C50_inside": [],
"C50_merge": [],
"C50_merge_null": [],
"C50_no_points": [],
"C50_null_overlap_refuted": [],
"C50_overlaps": [],
"C50_point_inside": [],
"C50_points": [],
"C51_meters_round_trip": [],
"C51_pixel_round_trip": [],
"C51_rectangular_round_trip": [],
"C51_scale_fills_image": [],
"C51_scale_shows_box": [],
"C51_shown_box_is_invertible": [],
"C52_convert_partial": [],
"C52_convert_refuted": [],
"C53_aligned_partial": [],
"C53_delay_refuted": [],
"C53_drawn": [],
"C53_inactive_refuted": [],
"C53_kept_partial": [],
"C53_renewed": [],
"C54_partial": [],
"C54_refuted": [],
"C54_since_1970_refuted": [],
"C54_whole": [],
"C55_round_array": [],
"C55_round_nearest": [],
"C55_seconds_round_trip": [],
"C55_seconds_round_trip_refuted": [],
"C56_current": [],
"C56_dry": [],
"C56_schemes": [],
"C56_simple": [],
"C56_wind": [],
"C57_factor": [],
"C57_monotone": [],
"C57_move": [],
"C58_answers": [],
"C58_duplicate_refuted": [],
"C58_failure": [],
"C58_history": [],
"C58_makes": [],
"C58_table": [],
"C59_keeps_input_partial": [],
"C59_rect_to_pixel_keeps_input_refuted": [],
"C59_to_lonlat_keeps_input_refuted": [],
"C60_param_map_leaves_others": [],
"C60_param_map_stops_on_shoreline": [],
"C61_infdatetime_accepts": [],
"C61_infdatetime_compares": [],
"C62_offset_text": [],
"C63_mixed_not_shifted": [],
"C63_shift_partial": [],
"C63_shift_refuted": [],
"C64_odd_step_refuted": [],
"C64_release_windows_tile": [],
"C65_time_matches_step": [],
"C65_zero_step_refuted": [],
"C66_errors_are_reported": [],
"C66_failing_step_never_skips": [],
"C66_full_run_reports": [],
"C66_full_run_reports_refuted": [],
"C67_at_the_point": [],
"C67_on_the_line": [],
"C68_custom_positions": [],
"C69_bulk_volume_partial": [],
"C69_rewind_is_new_partial": [],
"C69_rewind_is_new_refuted": [],
"C69_same_elements_partial": [],
"C69_same_release_partial": [],
"C70_per_timestep_partial": [],
"C70_per_timestep_refuted": [],
"C71_backward_release_partial": [],
"C71_backward_release_refuted": [],
"C72_moves_add_up": [],
"C72_order_of_movers": [],
"C73_backward_refuted": [],
"C73_day_refuted": [],
"C73_last_step_refuted": [],
"C73_post_run_partial": [],
"C74_boundary_refuted": [],
"C74_tests_agree": [],
"C75_fan": [],
"C75_insideb": [],
"C75_triangle": [],
"C76_again": [],
"C76_answers": [],
"C76_picture": [],
"C76_set": [],
"C76_thin": [],
"C77_areas": [],
"C77_everywhere": [],
"C77_positions": [],
"C77_positions_answers": [],
"C77_starts": [],
"C77_triangles": [],
"C77_volumes": [],
"C77_weights": [],
"C78_last": [],
"C78_partial": [],
"C78_refuted": [],
"C79_burn_partial": [],
"C79_burn_volume": [],
"C79_disperse_partial": [],
"C79_skim_exact": [],
"C79_skim_partial": [],
"C79_skim_refuted": [],
"C80_deterministic": [],
"C80_fate": [],
"C80_idempotent": [],
"C81_more_wind": [
"ClassicalDedekindReals.sig_not_dec",
"ClassicalDedekindReals.sig_forall_dec",
"FunctionalExtensionality.functional_extensionality_dep",
"Classical_Prop.classic"
],
"C82_cut": [
"ClassicalDedekindReals.sig_not_dec",
"ClassicalDedekindReals.sig_forall_dec",
"FunctionalExtensionality.functional_extensionality_dep",
"Classical_Prop.classic"
],
"C83_area": [
"ClassicalDedekindReals.sig_not_dec",
"ClassicalDedekindReals.sig_forall_dec",
"FunctionalExtensionality.functional_extensionality_dep",
"Classical_Prop.classic"
],
"C83_cut": [
"ClassicalDedekindReals.sig_not_dec",
"ClassicalDedekindReals.sig_forall_dec",
"FunctionalExtensionality.functional_extensionality_dep",
"Classical_Prop.classic"
],
"C84_bounds_partial": [
"ClassicalDedekindReals.sig_forall_dec",
"FunctionalExtensionality.functional_extensionality_dep"
],
"C84_monotone_partial": [
"ClassicalDedekindReals.sig_forall_dec",
"FunctionalExtensionality.functional_extensionality_dep"
],
"C84_refuted": [
"ClassicalDedekindReals.sig_forall_dec",
"FunctionalExtensionality.functional_extensionality_dep"
],
"C85_first": [
"ClassicalDedekindReals.sig_not_dec",
"ClassicalDedekindReals.sig_forall_dec",
"FunctionalExtensionality.functional_extensionality_dep",
"Classical_Prop.classic"
],
"C86_bounds": [
"ClassicalDedekindReals.sig_not_dec",
"ClassicalDedekindReals.sig_forall_dec",
"FunctionalExtensionality.functional_extensionality_dep",
"Classical_Prop.classic"
],
"C86_monotone": [
"ClassicalDedekindReals.sig_not_dec",
"ClassicalDedekindReals.sig_forall_dec",
"FunctionalExtensionality.functional_extensionality_dep",
"Classical_Prop.classic"
],
"C87_begins": [
"ClassicalDedekindReals.sig_not_dec",
"ClassicalDedekindReals.sig_forall_dec",
"FunctionalExtensionality.functional_extensionality_dep"
],
"C87_booked": [
"ClassicalDedekindReals.sig_not_dec",
"ClassicalDedekindReals.sig_forall_dec",
"FunctionalExtensionality.functional_extensionality_dep"
],
"C87_grows": [
"ClassicalDedekindReals.sig_not_dec",
"ClassicalDedekindReals.sig_forall_dec",
"FunctionalExtensionality.functional_extensionality_dep"
],
"C87_run": [
"ClassicalDedekindReals.sig_not_dec",
"ClassicalDedekindReals.sig_forall_dec",
"FunctionalExtensionality.functional_extensionality_dep"
],
"C88_fay": [
"ClassicalDedekindReals.sig_not_dec",
"ClassicalDedekindReals.sig_forall_dec",
"FunctionalExtensionality.functional_extensionality_dep",
"Classical_Prop.classic"
],
"C88_langmuir_partial": [
"ClassicalDedekindReals.sig_not_dec",
"ClassicalDedekindReals.sig_forall_dec",
"FunctionalExtensionality.functional_extensionality_dep",
"Classical_Prop.classic"
],
"C88_langmuir_refuted": [
"ClassicalDedekindReals.sig_not_dec",
"ClassicalDedekindReals.sig_forall_dec",
"FunctionalExtensionality.functional_extensionality_dep",
"Classical_Prop.classic"
],
"C89_fraction_refuted": [],
"C89_rk2": [],
"C89_rk4": [],
"C90_current": [],
"C90_default": [],
"C90_delay": [],
"C90_simple": [],
"C91_current": [],
"C92_negative_refuted": [],
"C92_wind_partial": [],
"C93_drift_partial": [],
"C93_mixed_refuted": [],
"C94_light_refuted": [
"ClassicalDedekindReals.sig_not_dec",
"ClassicalDedekindReals.sig_forall_dec",
"FunctionalExtensionality.functional_extensionality_dep"
],
"C94_pick": [
"ClassicalDedekindReals.sig_not_dec",
"ClassicalDedekindReals.sig_forall_dec",
"FunctionalExtensionality.functional_extensionality_dep",
"Classical_Prop.classic"
],
"C94_spreads": [
"ClassicalDedekindReals.sig_not_dec",
"ClassicalDedekindReals.sig_forall_dec",
"FunctionalExtensionality.functional_extensionality_dep",
"Classical_Prop.classic"
],
"C94_start_partial": [
"ClassicalDedekindReals.sig_not_dec",
"ClassicalDedekindReals.sig_forall_dec",
"FunctionalExtensionality.functional_extensionality_dep"
],
"C94_turned": [
"ClassicalDedekindReals.sig_not_dec",
"ClassicalDedekindReals.sig_forall_dec",
"FunctionalExtensionality.functional_extensionality_dep"
],
"C95_brace_refuted": [],
"C95_crowd_refuted": [],
"C95_data_file_refuted": [],
"C95_data_stored": [],
"C95_hidden_refuted": [],
"C95_json_lost_refuted": [],
"C95_roundtrip_partial": [],
"C95_saves_partial": [],
"C96_at": [],
"C96_data": [],
"C96_interpolates": [],
"C96_outside": [],
"C96_several": [],
"C96_single": [],
"C97_array": [],
"C97_list_refuted": [],
"C98_average_partial": [],
"C98_bounds_partial": [],
"C98_calm_refuted": [],
"C99_refused": [
"ClassicalDedekindReals.sig_not_dec",
"ClassicalDedekindReals.sig_forall_dec",
"FunctionalExtensionality.functional_extensionality_dep",
"Classical_Prop.classic"
],
"C99_same_numbers": [
"ClassicalDedekindReals.sig_not_dec",
"ClassicalDedekindReals.sig_forall_dec",
"FunctionalExtensionality.functional_extensionality_dep",
"Classical_Prop.classic"
],
"C99_set_get_partial": [
"ClassicalDedekindReals.sig_not_dec",
"ClassicalDedekindReals.sig_forall_dec",
"FunctionalExtensionality.functional_extensionality_dep",
"Classical_Prop.classic"
],
"C99_set_wind_data_partial": [
"ClassicalDedekindReals.sig_not_dec",
"ClassicalDedekindReals.sig_forall_dec",
"FunctionalExtensionality.functional_extensionality_dep",
"Classical_Prop.classic"
],
"C99_uv_refuted": [
"ClassicalDedekindReals.sig_not_dec",
"ClassicalDedekindReals.sig_forall_dec",
"FunctionalExtensionality.functional_extensionality_dep",
"Classical_Prop.classic"
]
}