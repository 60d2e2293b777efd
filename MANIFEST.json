{
 "claims": [
  {
   "property": "C01",
   "status": "proved",
   "theorems": [
    "C01_catalog_init",
    "C01_catalog_init_error",
    "C01_case"
   ],
   "note": "full characterisation of when construction succeeds and of the result"
  },
  {
   "property": "C02",
   "status": "proved",
   "theorems": [
    "C02_add_fields",
    "C02_add_fields_succeeds",
    "C02_add_fields_rejects"
   ],
   "note": ""
  },
  {
   "property": "C03",
   "status": "partial",
   "theorems": [
    "C03_to_fits_file_succeeds",
    "C03_to_fits_file_partial",
    "C03_to_fits_file_refuted"
   ],
   "note": "full statement is false of the code for one-row tables (indices ignored): C03_to_fits_file_refuted; proved for every other table. Taken literally the statement is false of the code, which is proved: for a one-row table the indices are ignored: an empty index array, or one that repeats the row, still writes one row (C03_to_fits_file_refuted). What does hold is proved without conditions in C03_to_fits_file_succeeds and under the condition in the statement of C03_to_fits_file_partial."
  },
  {
   "property": "C04",
   "status": "proved",
   "theorems": [
    "C04_growth",
    "C04_getitem",
    "C04_growth_succeeds",
    "C04_getitem_succeeds",
    "C04_entry"
   ],
   "note": ""
  },
  {
   "property": "C05",
   "status": "proved",
   "theorems": [
    "C05_serial_conservation",
    "C05_chunk_ok",
    "C05_master_table",
    "C05_existing_files",
    "C05_closed",
    "C05_split"
   ],
   "note": ""
  },
  {
   "property": "C06",
   "status": "partial",
   "theorems": [
    "C06_generated_ids",
    "C06_checked_ids_partial",
    "C06_master_left_behind_refuted"
   ],
   "note": "Taken literally the statement is false of the code, which is proved: a duplicated id makes finalize raise, but the master table is already on disk (C06_master_left_behind_refuted). What does hold is proved without conditions in C06_generated_ids and under the condition in the statement of C06_checked_ids_partial."
  },
  {
   "property": "C07",
   "status": "proved",
   "theorems": [
    "C07_no_lost_append",
    "C07_returned_is_stored",
    "C07_all_returned"
   ],
   "note": ""
  },
  {
   "property": "C08",
   "status": "proved",
   "theorems": [
    "C08_mutual_exclusion",
    "C08_history_alternates",
    "C08_held_stable",
    "C08_no_temporary_left",
    "C08_nonblocking",
    "C08_blocking"
   ],
   "note": ""
  },
  {
   "property": "C09",
   "status": "proved",
   "theorems": [
    "C09_table_safe",
    "C09_table_written",
    "C09_locks_given_back",
    "C09_lock_timeout_refuted",
    "C09_stale_files_refuted"
   ],
   "note": "The statement is proved in full. Beside it, proved: a task that fails to get the global lock in [maxtry] tries simply ends; if it was the last one, no table is ever written although no task failed (C09_lock_timeout_refuted); files left by an earlier run are counted, so a rerun publishes the table from them before the other tasks have run (C09_stale_files_refuted)."
  },
  {
   "property": "C10",
   "status": "proved",
   "theorems": [
    "C10_region",
    "C10_succeeds",
    "C10_tempfile",
    "C10_one_row_zred_refuted"
   ],
   "note": "The statement is proved in full. Beside it, proved: a zred file with a single record is silently broadcast to every galaxy of its pixel (C10_one_row_zred_refuted)."
  },
  {
   "property": "C11",
   "status": "partial",
   "theorems": [
    "C11_negative_border",
    "C11_border_with_list",
    "C11_nside_too_big",
    "C11_invalid_never_ok",
    "C11_empty_region",
    "C11_out_of_range_refuted"
   ],
   "note": "Taken literally the statement is false of the code, which is proved: an out-of-range pixel raises NameError instead of ValueError (C11_out_of_range_refuted). What does hold is proved without conditions in C11_negative_border, C11_border_with_list, C11_nside_too_big, C11_invalid_never_ok, C11_empty_region."
  },
  {
   "property": "C12",
   "status": "partial",
   "theorems": [
    "C12_chunks_cover_partial",
    "C12_given_size",
    "C12_few_galaxies_refuted"
   ],
   "note": "Taken literally the statement is false of the code, which is proved: every file with fewer galaxies than processes makes the run fail (C12_few_galaxies_refuted). What does hold is proved without conditions in C12_given_size and under the condition in the statement of C12_chunks_cover_partial."
  },
  {
   "property": "C13",
   "status": "partial",
   "theorems": [
    "C13_accounting",
    "C13_monotone",
    "C13_unit_interval_partial",
    "C13_single_claim_partial",
    "C13_overcommitted_refuted"
   ],
   "note": "Taken literally the statement is false of the code, which is proved: nothing holds a cluster to the free probability it was handed: two clusters with overlapping members claim 9/5 of a galaxy, and the third is handed -4/5 (C13_overcommitted_refuted). What does hold is proved without conditions in C13_accounting, C13_monotone and under the condition in the statement of C13_unit_interval_partial, C13_single_claim_partial."
  },
  {
   "property": "C14",
   "status": "partial",
   "theorems": [
    "C14_ids_distinct",
    "C14_duplicates_stop",
    "C14_unset_numbered",
    "C14_user_ids_kept_partial",
    "C14_single_cluster_refuted",
    "C14_empty_refuted"
   ],
   "note": "Taken literally the statement is false of the code, which is proved: The id of a catalog with a single cluster is always replaced by 1 (C14_single_cluster_refuted); Without clusters there are no numbers to give: a ValueError (C14_empty_refuted). What does hold is proved without conditions in C14_ids_distinct, C14_duplicates_stop, C14_unset_numbered and under the condition in the statement of C14_user_ids_kept_partial."
  },
  {
   "property": "C15",
   "status": "partial",
   "theorems": [
    "C15_consistent",
    "C15_member_rows",
    "C15_succeeds_partial",
    "C15_none_passes_refuted"
   ],
   "note": "Taken literally the statement is false of the code, which is proved: fails with ValueError, instead of producing an empty catalog, when members were saved but no cluster reaches the minimum (C15_none_passes_refuted). What does hold is proved without conditions in C15_consistent, C15_member_rows and under the condition in the statement of C15_succeeds_partial."
  },
  {
   "property": "C16",
   "status": "partial",
   "theorems": [
    "C16_terminates",
    "C16_range",
    "C16_bracket_partial",
    "C16_single_root_partial",
    "C16_low_end_refuted"
   ],
   "note": "Taken literally the statement is false of the code, which is proved: Without the guard the claim is false: the richness equation of twelve equal galaxies (p = x/(x+10), weight 0.925) crosses once, at 1.1, but the reset of out < 1 to 0.9 flips the sign test at 0.988 and every run ends above 1.4 (C16_low_end_refuted). What does hold is proved without conditions in C16_terminates, C16_range and under the condition in the statement of C16_bracket_partial, C16_single_root_partial."
  },
  {
   "property": "C17",
   "status": "proved",
   "theorems": [
    "C17_bounds",
    "C17_formula",
    "C17_zero",
    "C17_theta_hard_refuted"
   ],
   "note": "The statement is proved in full. Beside it, proved: theta_r returned in the hard-cut mode is not the radial weight: it is 1 for every galaxy inside the radius of richness 1000.25 (the first trial), even when it is outside the final radius and its weight is 0 (C17_theta_hard_refuted)."
  },
  {
   "property": "C18",
   "status": "proved",
   "theorems": [
    "C18_unselected",
    "C18_account",
    "C18_flag"
   ],
   "note": ""
  },
  {
   "property": "C19",
   "status": "proved",
   "theorems": [
    "C19_bounds",
    "C19_faint",
    "C19_bright",
    "C19_monotone"
   ],
   "note": ""
  },
  {
   "property": "C20",
   "status": "partial",
   "theorems": [
    "C20_assignment",
    "C20_negative",
    "C20_scale_always",
    "C20_radius_partial",
    "C20_set_neighbors_refuted"
   ],
   "note": "Taken literally the statement is false of the code, which is proved: set_neighbors on a cluster that has a redshift leaves the radii it was given (C20_set_neighbors_refuted). What does hold is proved without conditions in C20_assignment, C20_negative, C20_scale_always and under the condition in the statement of C20_radius_partial."
  },
  {
   "property": "C21",
   "status": "proved",
   "theorems": [
    "C21_selection",
    "C21_fail_iff",
    "C21_fail_reported"
   ],
   "note": ""
  },
  {
   "property": "C22",
   "status": "partial",
   "theorems": [
    "C22_bounded",
    "C22_failure_reported_partial",
    "C22_history",
    "C22_range_partial",
    "C22_fit_failure_refuted",
    "C22_negative_refuted",
    "C22_no_errors_refuted"
   ],
   "note": "Taken literally the statement is false of the code, which is proved: A fit that has no minimum in any pass is reported as a positive redshift with an error: the stand-in value -1 is replaced by the lower end of the fitted range (C22_fit_failure_refuted); close to zero a failed fit comes out as a negative redshift other than -1 (C22_negative_refuted); Without a request for errors every outcome, also a success, has the error -1 that marks failure (C22_no_errors_refuted). What does hold is proved without conditions in C22_bounded, C22_history and under the condition in the statement of C22_failure_reported_partial, C22_range_partial."
  },
  {
   "property": "C23",
   "status": "partial",
   "theorems": [
    "C23_error_not_reduced",
    "C23_without_pz",
    "C23_with_pz",
    "C23_noerr_refuted",
    "C23_noerr_ignored_refuted",
    "C23_few_bins"
   ],
   "note": "Taken literally the statement is false of the code, which is proved: Without p(z), asking for no error correction is a TypeError (C23_noerr_refuted); With p(z) the option has no effect: the error is enlarged all the same (C23_noerr_ignored_refuted). What does hold is proved without conditions in C23_error_not_reduced, C23_without_pz, C23_with_pz, C23_few_bins."
  },
  {
   "property": "C24",
   "status": "partial",
   "theorems": [
    "C24_fast_grid",
    "C24_middle_partial",
    "C24_even_bins_refuted",
    "C24_slow_limits",
    "C24_slow_grid",
    "C24_slow_middle_refuted",
    "C24_pz"
   ],
   "note": "Taken literally the statement is false of the code, which is proved: With an even number of bins no grid point is at z (C24_even_bins_refuted); But z need not be its middle point, and the grid can leave the redshift range (C24_slow_middle_refuted). What does hold is proved without conditions in C24_fast_grid, C24_slow_limits, C24_slow_grid, C24_pz and under the condition in the statement of C24_middle_partial."
  },
  {
   "property": "C25",
   "status": "partial",
   "theorems": [
    "C25_distribution_partial",
    "C25_qmiss_refuted",
    "C25_none_good",
    "C25_three_partial",
    "C25_three_refuted",
    "C25_basic"
   ],
   "note": "Taken literally the statement is false of the code, which is proved: With candidates found, q_cen never sums to 1 and the reported q_miss is 0, so together they fall short of 1 (C25_qmiss_refuted); Without either density the satellite and foreground probabilities are both 0, whatever p_cen is (C25_three_refuted). What does hold is proved without conditions in C25_none_good, C25_basic and under the condition in the statement of C25_distribution_partial, C25_three_partial."
  },
  {
   "property": "C26",
   "status": "partial",
   "theorems": [
    "C26_list",
    "C26_most_likely_kept",
    "C26_answers",
    "C26_no_place",
    "C26_no_candidate_refuted"
   ],
   "note": "Taken literally the statement is false of the code, which is proved: Without a galaxy passing the cuts the call raises instead of returning False (C26_no_candidate_refuted). What does hold is proved without conditions in C26_list, C26_most_likely_kept, C26_answers, C26_no_place."
  },
  {
   "property": "C27",
   "status": "proved",
   "theorems": [
    "C27_brightest",
    "C27_false_iff"
   ],
   "note": ""
  },
  {
   "property": "C28",
   "status": "partial",
   "theorems": [
    "C28_member_partial",
    "C28_no_member_refuted"
   ],
   "note": "Taken literally the statement is false of the code, which is proved: Without a neighbour of positive probability the call raises instead of returning False (C28_no_member_refuted). What does hold is proved under the condition in the statement of C28_member_partial."
  },
  {
   "property": "C29",
   "status": "partial",
   "theorems": [
    "C29_mask_partial",
    "C29_masked",
    "C29_one_bin_too_high_refuted",
    "C29_exact_depth_refuted"
   ],
   "note": "Taken literally the statement is false of the code, which is proved: Every kept pixel whose limit is not the last bin is NOT complete at the limit it is given: the limit is one bin too high (C29_one_bin_too_high_refuted); A pixel exactly as deep as the first bin needs is complete there and is masked (C29_exact_depth_refuted). What does hold is proved without conditions in C29_masked and under the condition in the statement of C29_mask_partial."
  },
  {
   "property": "C30",
   "status": "partial",
   "theorems": [
    "C30_vlim_partial",
    "C30_beyond_refuted",
    "C30_amount_refuted",
    "C30_depth_partial",
    "C30_depth_one_refuted",
    "C30_depth_beyond_refuted"
   ],
   "note": "Taken literally the statement is false of the code, which is proved: At and beyond the deepest pixel the answer is the area of a shallowest pixel, never 0 (C30_beyond_refuted); In between: a deep small pixel and a shallow large one; past the shallow one the whole area is still reported (C30_amount_refuted); One pixel: every query raises (C30_depth_one_refuted); Fainter than every depth: the area of two pixels, never 0 (C30_depth_beyond_refuted). What does hold is proved under the condition in the statement of C30_vlim_partial, C30_depth_partial."
  },
  {
   "property": "C31",
   "status": "partial",
   "theorems": [
    "C31_lookup_partial",
    "C31_bin_unique",
    "C31_lowest_edge_refuted"
   ],
   "note": "Taken literally the statement is false of the code, which is proved: a galaxy exactly on the lowest chisq edge (chisq = 0, a perfect colour match) gets the density of the LAST chisq bin, in every table (C31_lowest_edge_refuted). What does hold is proved without conditions in C31_bin_unique and under the condition in the statement of C31_lookup_partial."
  },
  {
   "property": "C32",
   "status": "partial",
   "theorems": [
    "C32_lookup_partial",
    "C32_above_refuted"
   ],
   "note": "Taken literally the statement is false of the code, which is proved: values above the table are never flagged; however far away they get the last bin's density (C32_above_refuted). What does hold is proved under the condition in the statement of C32_lookup_partial."
  },
  {
   "property": "C33",
   "status": "partial",
   "theorems": [
    "C33_bins_once_partial",
    "C33_bin_on_division_refuted",
    "C33_pixelized_read_all",
    "C33_single_file_refuted"
   ],
   "note": "Taken literally the statement is false of the code, which is proved: a bin that coincides with a division is computed by no worker (its density stays 0) (C33_bin_on_division_refuted); of a catalog that is a single file nothing is ever read (C33_single_file_refuted). What does hold is proved without conditions in C33_pixelized_read_all and under the condition in the statement of C33_bins_once_partial."
  },
  {
   "property": "C34",
   "status": "partial",
   "theorems": [
    "C34_count_partial",
    "C34_redmagic",
    "C34_no_holes_partial",
    "C34_other_limit_refuted",
    "C34_endless_refuted",
    "C34_progress"
   ],
   "note": "Taken literally the statement is false of the code, which is proved: for cluster randoms a redshift can exceed the maximum at the point itself: after the holes are cut out, limits of other points are used (C34_other_limit_refuted); If no catalog redshift fits below any limit, no number of passes is enough: the call does not return (C34_endless_refuted). What does hold is proved without conditions in C34_redmagic, C34_progress and under the condition in the statement of C34_count_partial, C34_no_holes_partial."
  },
  {
   "property": "C35",
   "status": "partial",
   "theorems": [
    "C35_file_partial",
    "C35_single_refuted",
    "C35_weights_partial",
    "C35_complete",
    "C35_lost_refuted",
    "C35_area_edge_refuted",
    "C35_errors",
    "C35_cuts"
   ],
   "note": "Taken literally the statement is false of the code, which is proved: a single point that fails the cuts is written all the same, with weight 0 (C35_single_refuted); a cluster whose randoms all fail the cuts loses them altogether: its weights do not add up to their number (C35_lost_refuted); The area correction counts with another cut than the weights: a kept point whose richness is at the upper edge of the bin is not counted as good (C35_area_edge_refuted). What does hold is proved without conditions in C35_complete, C35_errors, C35_cuts and under the condition in the statement of C35_file_partial, C35_weights_partial."
  },
  {
   "property": "C36",
   "status": "partial",
   "theorems": [
    "C36_consolidated",
    "C36_nothing_refuted",
    "C36_task",
    "C36_task_gaps_refuted",
    "C36_survives"
   ],
   "note": "Taken literally the statement is false of the code, which is proved: No surviving cluster at all: AttributeError instead of an empty catalog (C36_nothing_refuted); With a richness cut the ids of an output of the task are not 1..n and the rows not in order of likelihood (C36_task_gaps_refuted). What does hold is proved without conditions in C36_consolidated, C36_task, C36_survives."
  },
  {
   "property": "C37",
   "status": "partial",
   "theorems": [
    "C37_selection_partial",
    "C37_scale_error_refuted",
    "C37_scale_other_refuted",
    "C37_nothing_refuted",
    "C37_orphan_refuted",
    "C37_one_survivor_refuted"
   ],
   "note": "Taken literally the statement is false of the code, which is proved: With scale values on, a file that loses some but keeps at least two clusters stops the task (C37_scale_error_refuted); a file in which the pixel cut leaves one cluster out of several stops the task with IndexError, although the cluster passes (C37_scale_other_refuted); No cluster passes a cut: KeyError (C37_nothing_refuted); a file with exactly one member keeps that member even when its cluster is dropped (C37_orphan_refuted); In general: with scale values on, and one cluster of several left by the pixel cut, the cut compares the richness of that cluster over the scale value of each row of the file; if it passes with that of any row but the first, the task stops with an IndexError. Finding: the scale values used are those of other clusters (C37_one_survivor_refuted). What does hold is proved under the condition in the statement of C37_selection_partial."
  },
  {
   "property": "C38",
   "status": "partial",
   "theorems": [
    "C38_restart_partial",
    "C38_not_recomputed",
    "C38_torn_refuted",
    "C38_members_lost_refuted",
    "C38_reached_refuted",
    "C38_empty_rerun_refuted",
    "C38_without_check"
   ],
   "note": "Taken literally the statement is false of the code, which is proved: Killed while a file is being written: no number of restarts repairs it (C38_torn_refuted); Killed between the percolation catalog and its members: the members never appear (C38_members_lost_refuted); All of these states are reached by one kill of a run from an empty directory (C38_reached_refuted); A step that produced nothing leaves no trace and is run again each time (C38_empty_rerun_refuted). What does hold is proved without conditions in C38_not_recomputed, C38_without_check and under the condition in the statement of C38_restart_partial."
  },
  {
   "property": "C39",
   "status": "partial",
   "theorems": [
    "C39_splits",
    "C39_single_process_partial",
    "C39_single_process_refuted"
   ],
   "note": "Taken literally the statement is false of the code, which is proved: a failure otherwise: finding (C39_single_process_refuted). What does hold is proved without conditions in C39_splits and under the condition in the statement of C39_single_process_partial."
  },
  {
   "property": "C40",
   "status": "partial",
   "theorems": [
    "C40_defaults",
    "C40_given",
    "C40_history",
    "C40_unknown_partial",
    "C40_method_name_refuted",
    "C40_lengths",
    "C40_consistent",
    "C40_default_length_refuted",
    "C40_any_value_refuted",
    "C40_shared_refuted",
    "C40_load_resets_refuted",
    "C40_copy_region_refuted",
    "C40_region_separate",
    "C40_annulus",
    "C40_one_bound",
    "C40_region_area"
   ],
   "note": "Taken literally the statement is false of the code, which is proved: the name of a method is taken without a word and changes no option (C40_method_name_refuted); The default lists of node sizes have one element: with any number of bands but two, a file that does not give calib_color_nodesizes cannot be loaded (C40_default_length_refuted); A plain option takes any value: a sequence, or a value of another type (C40_any_value_refuted); All configurations share their options: setting one on any of them sets it on every other (C40_shared_refuted); loading a second file resets every option of the first configuration (C40_load_resets_refuted); A configuration and its copy share the region settings; configurations loaded separately do not (C40_copy_region_refuted). What does hold is proved without conditions in C40_defaults, C40_given, C40_history, C40_lengths, C40_consistent, C40_region_separate, C40_annulus, C40_one_bound, C40_region_area and under the condition in the statement of C40_unknown_partial."
  },
  {
   "property": "C41",
   "status": "partial",
   "theorems": [
    "C41_fixed_partial",
    "C41_drift_refuted",
    "C41_rises_refuted",
    "C41_width",
    "C41_start_refuted"
   ],
   "note": "Taken literally the statement is false of the code, which is proved: Without error ratios (the default) every evaluation adds the redder band's error once more: after n evaluations the objective is that of data whose first error column has grown by n times the second (C41_drift_refuted); So two evaluations at the same parameters differ: for a galaxy on the model color the value rises each time (C41_rises_refuted); Each start of a fit with fixed scatter grows the column as well (C41_start_refuted). What does hold is proved without conditions in C41_width and under the condition in the statement of C41_fixed_partial."
  },
  {
   "property": "C42",
   "status": "proved",
   "theorems": [
    "C42_between",
    "C42_node",
    "C42_outside"
   ],
   "note": ""
  },
  {
   "property": "C43",
   "status": "partial",
   "theorems": [
    "C43_nodes",
    "C43_start_partial",
    "C43_start_refuted",
    "C43_empty_refuted"
   ],
   "note": "Taken literally the statement is false of the code, which is proved: Otherwise the start of the range is lost: there is no node there and everything below the only regular node is extrapolated (C43_start_refuted); A requested end not above the start of the range raises ValueError (the maximum of an empty array) (C43_empty_refuted). What does hold is proved without conditions in C43_nodes and under the condition in the statement of C43_start_partial."
  },
  {
   "property": "C44",
   "status": "partial",
   "theorems": [
    "C44_cells",
    "C44_flat",
    "C44_total_partial",
    "C44_isolated_le",
    "C44_edge_refuted",
    "C44_average",
    "C44_outside"
   ],
   "note": "Taken literally the statement is false of the code, which is proved: without wraparound a sample within half a cell of the lower edge loses part of its weight (C44_edge_refuted). What does hold is proved without conditions in C44_cells, C44_flat, C44_isolated_le, C44_average, C44_outside and under the condition in the statement of C44_total_partial."
  },
  {
   "property": "C45",
   "status": "partial",
   "theorems": [
    "C45_mono_bounds",
    "C45_beyond_refuted",
    "C45_near",
    "C45_nearest_partial",
    "C45_nearest_refuted"
   ],
   "note": "Taken literally the statement is false of the code, which is proved: Beyond the overflow value the index is past the end of every table (C45_beyond_refuted); A table that starts elsewhere is read in a wrong row: with bins of 0.005 from 0.052, redshift 0.0528 is read in the row of 0.057; with bins from 0.0525 even a tabulated redshift is read in another row (C45_nearest_refuted). What does hold is proved without conditions in C45_mono_bounds, C45_near and under the condition in the statement of C45_nearest_partial."
  },
  {
   "property": "C46",
   "status": "proved",
   "theorems": [
    "C46_covmat",
    "C46_minors",
    "C46_three_colors_indefinite",
    "C46_corr_r"
   ],
   "note": ""
  },
  {
   "property": "C47",
   "status": "partial",
   "theorems": [
    "C47_covariance",
    "C47_residual",
    "C47_value",
    "C47_nonneg",
    "C47_marker",
    "C47_likelihood",
    "C47_errors_lower",
    "C47_one_redshift",
    "C47_one_galaxy",
    "C47_pairs_partial",
    "C47_pairs_refuted",
    "C47_layout_refuted",
    "C47_result"
   ],
   "note": "Taken literally the statement is false of the code, which is proved: for pairs of galaxies and redshifts the slopes of the first pair are used for the magnitude errors of every pair: the second galaxy gets 1 instead of 1/2 (C47_pairs_refuted); the covariance stack must be laid out with the redshift axis slowest: from a row-major (color, color, redshift) array another redshift's entry is read (C47_layout_refuted). What does hold is proved without conditions in C47_covariance, C47_residual, C47_value, C47_nonneg, C47_marker, C47_likelihood, C47_errors_lower, C47_one_redshift, C47_one_galaxy, C47_result and under the condition in the statement of C47_pairs_partial."
  },
  {
   "property": "C48",
   "status": "partial",
   "theorems": [
    "C48_failed",
    "C48_good",
    "C48_spread",
    "C48_limits",
    "C48_evaluated",
    "C48_bins",
    "C48_window",
    "C48_corrected",
    "C48_bulk_corrected",
    "C48_corrected_floor",
    "C48_corrected_floor_refuted",
    "C48_bulk_rows",
    "C48_bulk_close_partial",
    "C48_bulk_refuted",
    "C48_zred2_refuted",
    "C48_bulk_failed_refuted",
    "C48_nearest",
    "C48_window_where"
   ],
   "note": "Taken literally the statement is false of the code, which is proved: a good galaxy can have a corrected error below 0.005 (C48_corrected_floor_refuted); in general they do not agree (C48_bulk_refuted); the second redshift never gets its magnitude term in bulk (C48_zred2_refuted); a failed galaxy in a corrected catalog does not keep the bad values: the corrections at z = -1 are added to them (C48_bulk_failed_refuted). What does hold is proved without conditions in C48_failed, C48_good, C48_spread, C48_limits, C48_evaluated, C48_bins, C48_window, C48_corrected, C48_bulk_corrected, C48_corrected_floor, C48_bulk_rows, C48_nearest, C48_window_where and under the condition in the statement of C48_bulk_close_partial."
  },
  {
   "property": "C49",
   "status": "partial",
   "theorems": [
    "C49_at_limit_partial",
    "C49_at_limit_refuted",
    "C49_ratio_at_limit_partial",
    "C49_increases",
    "C49_brighter",
    "C49_exposure_partial",
    "C49_exposure_refuted",
    "C49_noiseless",
    "C49_noiseless_asinh",
    "C49_flux",
    "C49_flux_noise",
    "C49_undetected"
   ],
   "note": "Taken literally the statement is false of the code, which is proved: never otherwise: the floor makes every clipped depth too pessimistic (C49_at_limit_refuted); for fainter ones it gives larger errors, always (C49_exposure_refuted). What does hold is proved without conditions in C49_increases, C49_brighter, C49_noiseless, C49_noiseless_asinh, C49_flux, C49_flux_noise, C49_undetected and under the condition in the statement of C49_at_limit_partial, C49_ratio_at_limit_partial, C49_exposure_partial."
  },
  {
   "property": "C50",
   "status": "partial",
   "theorems": [
    "C50_exact",
    "C50_unknown",
    "C50_rows",
    "C50_range_refuted",
    "C50_cushion_refuted",
    "C50_files",
    "C50_clobber"
   ],
   "note": "Taken literally the statement is false of the code, which is proved: the redshift range is tested on the uncorrected redshift only: a selected galaxy can have a corrected redshift outside of the range and its cushion (C50_range_refuted); the cushion cut at the uncorrected redshift is a cut of its own: a galaxy that passes everything at its corrected redshift can be lost to it (C50_cushion_refuted). What does hold is proved without conditions in C50_exact, C50_unknown, C50_rows, C50_files, C50_clobber."
  },
  {
   "property": "C51",
   "status": "proved",
   "theorems": [
    "C51_every_color",
    "C51_shared_band",
    "C51_all_bands",
    "C51_model_magnitudes"
   ],
   "note": ""
  },
  {
   "property": "C52",
   "status": "proved",
   "theorems": [
    "C52_rows",
    "C52_one_owner",
    "C52_succeeds",
    "C52_mode",
    "C52_nothing_kept"
   ],
   "note": ""
  },
  {
   "property": "C53",
   "status": "partial",
   "theorems": [
    "C53_good_partial",
    "C53_one_pass",
    "C53_reset",
    "C53_maxiter_refuted",
    "C53_endless_refuted",
    "C53_zero_refuted",
    "C53_final_mask_refuted"
   ],
   "note": "Taken literally the statement is false of the code, which is proved: The limit on the number of iterations has no effect: any two positive limits give the same result (C53_maxiter_refuted); A cluster whose redshift keeps moving by more than the tolerance is never finished (C53_endless_refuted); With a limit of zero the cluster is reported good although nothing has been computed (C53_zero_refuted); The mask fraction recorded for a good cluster, which is computed again within its radius, is not limited (C53_final_mask_refuted). What does hold is proved without conditions in C53_one_pass, C53_reset and under the condition in the statement of C53_good_partial."
  },
  {
   "property": "C54",
   "status": "proved",
   "theorems": [
    "C54_kept",
    "C54_value",
    "C54_bound",
    "C54_one_central",
    "C54_monotone",
    "C54_infinite",
    "C54_zscan"
   ],
   "note": ""
  },
  {
   "property": "C55",
   "status": "partial",
   "theorems": [
    "C55_accepted",
    "C55_full_partial",
    "C55_full_refuted",
    "C55_lengths",
    "C55_fraction",
    "C55_final_fraction",
    "C55_fraction_undefined"
   ],
   "note": "Taken literally the statement is false of the code, which is proved: At a pole nothing is accepted, whatever the map says (C55_full_refuted). What does hold is proved without conditions in C55_accepted, C55_lengths, C55_fraction, C55_final_fraction, C55_fraction_undefined and under the condition in the statement of C55_full_partial."
  },
  {
   "property": "C56",
   "status": "partial",
   "theorems": [
    "C56_member_file_partial",
    "C56_member_file_refuted"
   ],
   "note": "Taken literally the statement is false of the code, which is proved: Every catalog whose base name ends in 'f', 'i', 't' or '.' has another file read (C56_member_file_refuted). What does hold is proved under the condition in the statement of C56_member_file_partial."
  },
  {
   "property": "C57",
   "status": "partial",
   "theorems": [
    "C57_runmodes",
    "C57_new_name_partial",
    "C57_new_name_refuted",
    "C57_gap_refuted",
    "C57_each_once",
    "C57_covers_partial",
    "C57_covers_refuted",
    "C57_pbs_refuted"
   ],
   "note": "Taken literally the statement is false of the code, which is proved: From the eleventh submission on, the same job file is overwritten (C57_new_name_refuted); A removed earlier job makes the next submission overwrite a later one (C57_gap_refuted); With run pixels finer than the catalog's, some galaxies belong to no job (C57_covers_refuted); On PBS no job is written, for any catalog (C57_pbs_refuted). What does hold is proved without conditions in C57_runmodes, C57_each_once and under the condition in the statement of C57_new_name_partial, C57_covers_partial."
  },
  {
   "property": "C58",
   "status": "partial",
   "theorems": [
    "C58_selected_partial",
    "C58_boundary_refuted",
    "C58_unordered_refuted",
    "C58_mode",
    "C58_same_mode",
    "C58_modes"
   ],
   "note": "Taken literally the statement is false of the code, which is proved: A galaxy on a boundary is never selected, whatever its color (C58_boundary_refuted); Boundaries out of order: one galaxy is tested with two modes and selected when it passes either (C58_unordered_refuted). What does hold is proved without conditions in C58_mode, C58_same_mode, C58_modes and under the condition in the statement of C58_selected_partial."
  },
  {
   "property": "C59",
   "status": "partial",
   "theorems": [
    "C59_grid",
    "C59_usable",
    "C59_best_partial",
    "C59_flag_refuted",
    "C59_refined"
   ],
   "note": "Taken literally the statement is false of the code, which is proved: A likelihood of -1 or less cannot be told from no cluster: when the first redshift of the grid is not usable and no usable one has a likelihood above -1, the cluster is reported bad (C59_flag_refuted). What does hold is proved without conditions in C59_grid, C59_usable, C59_refined and under the condition in the statement of C59_best_partial."
  },
  {
   "property": "C60",
   "status": "partial",
   "theorems": [
    "C60_last_partial",
    "C60_others_refuted",
    "C60_no_cluster_refuted"
   ],
   "note": "Taken literally the statement is false of the code, which is proved: goes on whenever it is not, whatever the other redshifts are (C60_others_refuted); without any cluster the check itself stops with UnboundLocalError (C60_no_cluster_refuted). What does hold is proved under the condition in the statement of C60_last_partial."
  },
  {
   "property": "C61",
   "status": "partial",
   "theorems": [
    "C61_set_attr",
    "C61_set_attr_succeeds",
    "C61_get_attr",
    "C61_length_one_refuted"
   ],
   "note": "one-element sequences are silently broadcast (C61_length_one_refuted); everything else proved. Taken literally the statement is false of the code, which is proved: A sequence shorter than the catalog is not always rejected: one of length one is silently copied to every row (C61_length_one_refuted). What does hold is proved without conditions in C61_set_attr, C61_set_attr_succeeds, C61_get_attr."
  },
  {
   "property": "C62",
   "status": "partial",
   "theorems": [
    "C62_recount_partial",
    "C62_globbed_partial",
    "C62_distinct",
    "C62_path_refuted",
    "C62_large_refuted",
    "C62_other_file_refuted",
    "C62_beyond"
   ],
   "note": "Taken literally the statement is false of the code, which is proved: If the directory or the base name holds such a text, every file is counted for that one pixel: all other pixels are recorded as empty (C62_path_refuted); From pixel 10,000,000 on (which nside 1024 has) the file is not found at all (C62_large_refuted); A file that matches the pattern but holds no pixel number stops the finalisation (C62_other_file_refuted). What does hold is proved without conditions in C62_distinct, C62_beyond and under the condition in the statement of C62_recount_partial, C62_globbed_partial."
  },
  {
   "property": "C63",
   "status": "partial",
   "theorems": [
    "C63_diagonal_partial",
    "C63_below_refuted",
    "C63_offdiag",
    "C63_swapped_refuted",
    "C63_missing"
   ],
   "note": "Taken literally the statement is false of the code, which is proved: a colour far below the table is not flagged (C63_below_refuted); asked in the order opposite to the stored one, the table is read with the two colours exchanged (C63_swapped_refuted). What does hold is proved without conditions in C63_offdiag, C63_missing and under the condition in the statement of C63_diagonal_partial."
  },
  {
   "property": "C64",
   "status": "partial",
   "theorems": [
    "C64_unchanged_partial",
    "C64_overwritten_refuted"
   ],
   "note": "Taken literally the statement is false of the code, which is proved: With centering_use_zspec the photometric redshift of every neighbour with a spectrum is replaced (C64_overwritten_refuted). What does hold is proved under the condition in the statement of C64_unchanged_partial."
  },
  {
   "property": "C65",
   "status": "partial",
   "theorems": [
    "C65_limit_ignored_refuted",
    "C65_stale_limit_refuted"
   ],
   "note": "Taken literally the statement is false of the code, which is proved: The limit passed in never matters: two calls with different limits give the same result in every environment (C65_limit_ignored_refuted); without a limit, the limit of the first redshift is kept for every later iteration, whatever redshift it has moved to (C65_stale_limit_refuted). What does hold is proved."
  },
  {
   "property": "C66",
   "status": "partial",
   "theorems": [
    "C66_wcen_partial",
    "C66_slope_refuted"
   ],
   "note": "Taken literally the statement is false of the code, which is proved: the slope of the central magnitude relation is set to the value of another column (C66_slope_refuted). What does hold is proved under the condition in the statement of C66_wcen_partial."
  },
  {
   "property": "C67",
   "status": "proved",
   "theorems": [
    "C67_pieces",
    "C67_roundtrip",
    "C67_bounds",
    "C67_nothing_to_fit"
   ],
   "note": ""
  },
  {
   "property": "C68",
   "status": "proved",
   "theorems": [
    "C68_invertible"
   ],
   "note": ""
  },
  {
   "property": "C69",
   "status": "partial",
   "theorems": [
    "C69_sorted",
    "C69_failure_refuted"
   ],
   "note": "Taken literally the statement is false of the code, which is proved: If the optimiser fails, the offset stays in the data (C69_failure_refuted). What does hold is proved without conditions in C69_sorted."
  },
  {
   "property": "C70",
   "status": "proved",
   "theorems": [
    "C70_pinned",
    "C70_template"
   ],
   "note": ""
  },
  {
   "property": "C71",
   "status": "partial",
   "theorems": [
    "C71_depends",
    "C71_one_redshift",
    "C71_many_partial",
    "C71_many_refuted",
    "C71_refused"
   ],
   "note": "Taken literally the statement is false of the code, which is proved: there are accepted shapes for which reference magnitudes, or covariance entries, are read past the end (C71_many_refuted). What does hold is proved without conditions in C71_depends, C71_one_redshift, C71_refused and under the condition in the statement of C71_many_partial."
  },
  {
   "property": "C72",
   "status": "partial",
   "theorems": [
    "C72_same_model",
    "C72_true_depth_minimises",
    "C72_unique",
    "C72_data",
    "C72_selects",
    "C72_answers_partial",
    "C72_no_good",
    "C72_answers_refuted",
    "C72_fallback"
   ],
   "note": "Taken literally the statement is false of the code, which is proved: with none it raises IndexError instead of setting the failure flag: no fallback is reached (C72_answers_refuted). What does hold is proved without conditions in C72_same_model, C72_true_depth_minimises, C72_unique, C72_data, C72_selects, C72_no_good, C72_fallback and under the condition in the statement of C72_answers_partial."
  },
  {
   "property": "C73",
   "status": "partial",
   "theorems": [
    "C73_entries",
    "C73_positive_definite",
    "C73_unchecked_refuted"
   ],
   "note": "Taken literally the statement is false of the code, which is proved: nothing checks the setting: with a correlation of one or more the matrix is never positive definite (C73_unchecked_refuted). What does hold is proved without conditions in C73_entries, C73_positive_definite."
  },
  {
   "property": "C74",
   "status": "partial",
   "theorems": [
    "C74_run_directory",
    "C74_run_outbase",
    "C74_redmagic_configuration",
    "C74_same_directory_partial",
    "C74_same_directory_refuted",
    "C74_shared_refuted"
   ],
   "note": "Taken literally the statement is false of the code, which is proved: Otherwise it goes to a directory of another name (C74_same_directory_refuted); Calibrations in two different directories can share their run directory (C74_shared_refuted). What does hold is proved without conditions in C74_run_directory, C74_run_outbase, C74_redmagic_configuration and under the condition in the statement of C74_same_directory_partial."
  },
  {
   "property": "C75",
   "status": "partial",
   "theorems": [
    "C75_rows",
    "C75_skipped",
    "C75_order",
    "C75_runs",
    "C75_keepid_partial",
    "C75_keepid_refuted",
    "C75_total_partial",
    "C75_total_refuted",
    "C75_uncalibrated_refuted",
    "C75_infinite_dropped"
   ],
   "note": "Taken literally the statement is false of the code, which is proved: When a single cluster is usable its kept identifier is replaced by 1 (C75_keepid_refuted); before the centering is calibrated the total likelihood is not written at all (C75_total_refuted); a run before that therefore puts a cluster of smaller likelihood first (C75_uncalibrated_refuted). What does hold is proved without conditions in C75_rows, C75_skipped, C75_order, C75_runs, C75_infinite_dropped and under the condition in the statement of C75_keepid_partial, C75_total_partial."
  },
  {
   "property": "C76",
   "status": "partial",
   "theorems": [
    "C76_good",
    "C76_values_partial",
    "C76_bad",
    "C76_unconnected_refuted",
    "C76_no_iterations_refuted"
   ],
   "note": "Taken literally the statement is false of the code, which is proved: A cluster without members between its center and its edge is reset, but reported as good (C76_unconnected_refuted); With no iterations configured the reported redshift is the one of the input, never measured (C76_no_iterations_refuted). What does hold is proved without conditions in C76_good, C76_bad and under the condition in the statement of C76_values_partial."
  },
  {
   "property": "C77",
   "status": "partial",
   "theorems": [
    "C77_resume_partial",
    "C77_kept",
    "C77_configuration",
    "C77_correction_refuted",
    "C77_parameters_refuted",
    "C77_members_refuted"
   ],
   "note": "Taken literally the statement is false of the code, which is proved: With a redshift correction in the configuration, the runs with random centers are made without it or with it, depending on whether the calibration was interrupted before (C77_correction_refuted); Killed during a step: the red-sequence parameters are written once before the corrections are known and again with them. Killed between the two, the calibration goes on with the first version for ever (C77_parameters_refuted); Killed after the catalog was written and before its members were: the members are never written (C77_members_refuted). What does hold is proved without conditions in C77_kept, C77_configuration and under the condition in the statement of C77_resume_partial."
  },
  {
   "property": "C78",
   "status": "partial",
   "theorems": [
    "C78_first",
    "C78_order",
    "C78_second",
    "C78_output",
    "C78_nothing_refuted",
    "C78_cuts"
   ],
   "note": "Taken literally the statement is false of the code, which is proved: When no cluster can be measured in the second pass there is no member table and the run ends with AttributeError (C78_nothing_refuted). What does hold is proved without conditions in C78_first, C78_order, C78_second, C78_output, C78_cuts."
  },
  {
   "property": "C79",
   "status": "partial",
   "theorems": [
    "C79_fraction",
    "C79_bounds",
    "C79_monotone",
    "C79_errors",
    "C79_coefficients",
    "C79_coefficients_errors",
    "C79_sample",
    "C79_ngals_refuted",
    "C79_hard_edge_refuted"
   ],
   "note": "Taken literally the statement is false of the code, which is proved: the file's own ngals (kept in its header) is not checked. Reading a file with another value of maskgal_ngals divides by the normalisation of another sample size: nothing is lost, yet c = 1/2 (C79_ngals_refuted); with a hard edge (rsig <= 0) the radius is ignored: every mask galaxy counts at every radius (C79_hard_edge_refuted). What does hold is proved without conditions in C79_fraction, C79_bounds, C79_monotone, C79_errors, C79_coefficients, C79_coefficients_errors, C79_sample."
  },
  {
   "property": "C80",
   "status": "partial",
   "theorems": [
    "C80_error",
    "C80_nothing_missed",
    "C80_solver_fraction",
    "C80_fraction_partial",
    "C80_fraction_refuted"
   ],
   "note": "Taken literally the statement is false of the code, which is proved: at every other radius a mask fraction of one half can be taken for zero and its error dropped (C80_fraction_refuted). What does hold is proved without conditions in C80_error, C80_nothing_missed, C80_solver_fraction and under the condition in the statement of C80_fraction_partial."
  },
  {
   "property": "C81",
   "status": "partial",
   "theorems": [
    "C81_cluster_scale",
    "C81_random_scale_partial",
    "C81_random_scale_refuted"
   ],
   "note": "Taken literally the statement is false of the code, which is proved: an unmasked field whose fit is slightly negative gives randoms a scale value below one, a fraction above one a negative scale value (C81_random_scale_refuted). What does hold is proved without conditions in C81_cluster_scale and under the condition in the statement of C81_random_scale_partial."
  },
  {
   "property": "C82",
   "status": "proved",
   "theorems": [
    "C82_too_few",
    "C82_outcome",
    "C82_measured",
    "C82_kept",
    "C82_rejected",
    "C82_ratio_refuted",
    "C82_error_refuted",
    "C82_stale_scale_refuted"
   ],
   "note": "The statement is proved in full. Beside it, proved: the richness test does not do it alone. \"Not measured\" is -10 with scale value -1, whose ratio is +10: with the default minimum of 10 (or less) and no cut on the central galaxy, a cluster with too few red galaxies goes through with whatever richness it had before (C82_ratio_refuted); asking for the error never returns a richness: a successful measurement raises NameError (C82_error_refuted); when the central galaxy is outside the colour range the scale value of an earlier measurement stays (C82_stale_scale_refuted)."
  },
  {
   "property": "C83",
   "status": "proved",
   "theorems": [
    "C83_from_seedfile",
    "C83_from_galaxies",
    "C83_refused",
    "C83_cleaninput_refuted",
    "C83_spec_unset_refuted",
    "C83_spec_crash_refuted"
   ],
   "note": "The statement is proved in full. Beside it, proved: cleaninput (keep only positions inside the survey mask) has no effect without a seed file: the catalog is the same whatever the mask and whatever the flag (C83_cleaninput_refuted); the seeds are cut on their photometric redshift also in specmode, where the spectroscopic one is used: seeds whose photometric redshift is not set (-1, as selectspecseeds writes without zreds) give no catalog (C83_spec_unset_refuted); a seed with a good photometric redshift but no spectroscopic one (zspec <= 0) stays in and stops the run with a TypeError when its turn comes (C83_spec_crash_refuted)."
  },
  {
   "property": "C84",
   "status": "partial",
   "theorems": [
    "C84_radius_partial",
    "C84_radius_refuted"
   ],
   "note": "Taken literally the statement is false of the code, which is proved: without a seed file the configured firstpass_r0 and firstpass_beta are not handed on: every first pass from galaxies uses r0 = 1.0 and beta = 0.2, whatever is configured (0.5 and 0.0 are the defaults) (C84_radius_refuted). What does hold is proved under the condition in the statement of C84_radius_partial."
  },
  {
   "property": "C85",
   "status": "proved",
   "theorems": [
    "C85_course",
    "C85_no_iterations_refuted",
    "C85_lambda_at_old_redshift_refuted",
    "C85_no_neighbors_refuted"
   ],
   "note": "The statement is proved in full. Beside it, proved: with firstpass_niter = 0 (outside specmode) the first cluster stops the run with an UnboundLocalError (C85_no_iterations_refuted); the richness recorded is not that at the redshift recorded: the redshift is updated after the richness was measured, also in the last iteration. Whenever the last redshift found differs from where it was measured, the recorded richness belongs to the latter (C85_lambda_at_old_redshift_refuted); A cluster without neighbors at the redshift where its work ends stops the run with a ValueError, whether it was accepted or not (C85_no_neighbors_refuted)."
  },
  {
   "property": "C86",
   "status": "partial",
   "theorems": [
    "C86_sound",
    "C86_kept",
    "C86_completes_partial",
    "C86_idle",
    "C86_no_seeds_refuted",
    "C86_no_likelihoods_refuted",
    "C86_members_lost_refuted",
    "C86_refused"
   ],
   "note": "Taken literally the statement is false of the code, which is proved: a pixel in which the first pass finds nothing (no catalog is written, with a warning) does not end: the next stage stops with an OSError because the file is missing. The calibration's own worker handles this case (C86_no_seeds_refuted); the same when the likelihood stage keeps no cluster (C86_no_likelihoods_refuted); a run killed between the final catalog and its members leaves a pixel without members for good: no later history of runs writes them (C86_members_lost_refuted). What does hold is proved without conditions in C86_sound, C86_kept, C86_idle, C86_refused and under the condition in the statement of C86_completes_partial."
  },
  {
   "property": "C87",
   "status": "partial",
   "theorems": [
    "C87_zmask",
    "C87_zscan_rerun_refuted",
    "C87_runcat_refuted",
    "C87_not_pixelized"
   ],
   "note": "Taken literally the statement is false of the code, which is proved: the zscan task looks for the file without the code's version in its name and writes the one with it. Every repetition runs again and appends a table; a reader gets the oldest (C87_zscan_rerun_refuted); the runcat task stops with a NameError on every pixelized galaxy file (C87_runcat_refuted). What does hold is proved without conditions in C87_zmask, C87_not_pixelized."
  },
  {
   "property": "C88",
   "status": "partial",
   "theorems": [
    "C88_path_partial",
    "C88_default_refuted"
   ],
   "note": "Taken literally the statement is false of the code, which is proved: without one the output does not go to the configuration file's directory, as documented, but to the path in the configuration or else the working directory, wherever the configuration file is (C88_default_refuted). What does hold is proved under the condition in the statement of C88_path_partial."
  },
  {
   "property": "C89",
   "status": "proved",
   "theorems": [
    "C89_seeds",
    "C89_complete",
    "C89_duplicates_refuted",
    "C89_unusable_refuted"
   ],
   "note": "The statement is proved in full. Beside it, proved: a galaxy that two spectra match is seeded twice, each time with another spectroscopic redshift (C89_duplicates_refuted); the seeds selected before photometric redshifts exist have -1 in their place, and a first pass that is given them, in any mode, finds no usable seed (C89_unusable_refuted)."
  },
  {
   "property": "C90",
   "status": "partial",
   "theorems": [
    "C90_cells",
    "C90_density_partial",
    "C90_grid_refuted",
    "C90_marker_refuted"
   ],
   "note": "Taken literally the statement is false of the code, which is proved: when limmag - 12 is not a whole number of magnitude bins (limmag 14.1, bins of 0.2) the table is filled on a finer grid than its bins say: a galaxy in the very middle of bin 9 (magnitude 13.9) is counted with weight 115/210 there and with 95/210 in the next bin (C90_grid_refuted); the chi-squared that marks galaxies beyond the magnitude limit of a redshift bin (about 430) is only out of range if chisq_max is not larger; otherwise a galaxy beyond the limit is counted in the cell of that value (C90_marker_refuted). What does hold is proved without conditions in C90_cells and under the condition in the statement of C90_density_partial."
  },
  {
   "property": "C91",
   "status": "partial",
   "theorems": [
    "C91_cells",
    "C91_density_partial",
    "C91_grid_refuted"
   ],
   "note": "Taken literally the statement is false of the code, which is proved: with a zred range that is not a whole number of bins (0.1 to 0.295 in bins of 0.01) the same happens: a galaxy at the centre of bin 9 loses a quarter of its weight to the next bin (C91_grid_refuted). What does hold is proved without conditions in C91_cells and under the condition in the statement of C91_density_partial."
  },
  {
   "property": "C92",
   "status": "proved",
   "theorems": [
    "C92_fine",
    "C92_nonneg",
    "C92_n",
    "C92_zred",
    "C92_zred_outside",
    "C92_empty",
    "C92_no_bins"
   ],
   "note": ""
  },
  {
   "property": "C93",
   "status": "partial",
   "theorems": [
    "C93_kept",
    "C93_succeeds",
    "C93_clobber_refuted"
   ],
   "note": "Taken literally the statement is false of the code, which is proved: with clobber the whole file is replaced, not the extension: recomputing one background removes the other (C93_clobber_refuted). What does hold is proved without conditions in C93_kept, C93_succeeds."
  },
  {
   "property": "C94",
   "status": "partial",
   "theorems": [
    "C94_succeeds",
    "C94_radius",
    "C94_annulus",
    "C94_mask_partial",
    "C94_rich_refuted",
    "C94_gamma_refuted",
    "C94_beta0_refuted",
    "C94_lmask_refuted",
    "C94_lmask",
    "C94_moved_partial",
    "C94_moved_refuted"
   ],
   "note": "Taken literally the statement is false of the code, which is proved: with the shipped settings the mask radius of every cluster of richness above 300 is beyond the galaxies that were looked up, so members between the two radii are not masked (C94_rich_refuted); the search radius ignores the redshift dependence of the mask radius: with any positive percolation_rmask_gamma, at every redshift above the pivot a cluster of richness 300 has a mask radius beyond the search radius (C94_gamma_refuted); with a constant richness radius (beta 0) the search goes to 1.2 times the mask radius of richness 100, also when the mask radius grows with richness: with the shipped exponent 0.2 it falls short at richness 300 (C94_beta0_refuted); percolation_lmask has no default; a configuration without it makes every runner stop with a TypeError (C94_lmask_refuted); when a cluster moves to a lower redshift (smaller scale), galaxies inside of the search radius are missing (C94_moved_refuted). What does hold is proved without conditions in C94_succeeds, C94_radius, C94_annulus, C94_lmask and under the condition in the statement of C94_mask_partial, C94_moved_partial."
  },
  {
   "property": "C95",
   "status": "partial",
   "theorems": [
    "C95_percolation",
    "C95_runcat",
    "C95_magnitude",
    "C95_memradius",
    "C95_memlum_refuted",
    "C95_lmask_refuted"
   ],
   "note": "Taken literally the statement is false of the code, which is proved: percolation_memlum only deepens the search; the cut on the luminosity of the members that it stands for is never switched on, whatever its value (C95_memlum_refuted); percolation stops with a TypeError when percolation_lmask is not set (C95_lmask_refuted). What does hold is proved without conditions in C95_percolation, C95_runcat, C95_magnitude, C95_memradius."
  },
  {
   "property": "C96",
   "status": "partial",
   "theorems": [
    "C96_border_partial",
    "C96_rich_refuted"
   ],
   "note": "Taken literally the statement is false of the code, which is proved: with the shipped settings the border is too narrow for rich clusters: on a line, two clusters of richness 400 at the lowest redshift have a galaxy in common inside of their mask radii, and a galaxy of the second is as far from the first as the border (C96_rich_refuted). What does hold is proved under the condition in the statement of C96_border_partial."
  },
  {
   "property": "C97",
   "status": "partial",
   "theorems": [
    "C97_distribution",
    "C97_first_refuted",
    "C97_one_color_refuted"
   ],
   "note": "Taken literally the statement is false of the code, which is proved: the first grid point is drawn by the random numbers below 1/n also where the density is zero there, as for the chi-squared of three or more colors at zero (the weight of these mask galaxies is then zero) (C97_first_refuted); with one color (two magnitudes) the chi-squared density is infinite at zero, and making the mask galaxies stops with an IndexError whatever the rest of the density and the random numbers (C97_one_color_refuted). What does hold is proved without conditions in C97_distribution."
  },
  {
   "property": "C98",
   "status": "partial",
   "theorems": [
    "C98_bins",
    "C98_first",
    "C98_samples_partial",
    "C98_read",
    "C98_settings_refuted",
    "C98_short_refuted"
   ],
   "note": "Taken literally the statement is false of the code, which is proved: the settings a file was made with are in its header but never compared: a file made for other radii, magnitudes or limits is used as it is (C98_settings_refuted); with more samples configured than a file has, the samples beyond its end are empty and nothing is said (C98_short_refuted). What does hold is proved without conditions in C98_bins, C98_first, C98_read and under the condition in the statement of C98_samples_partial."
  },
  {
   "property": "C99",
   "status": "partial",
   "theorems": [
    "C99_ratio",
    "C99_counted",
    "C99_predicted",
    "C99_succeeds",
    "C99_weights_refuted",
    "C99_annulus_refuted"
   ],
   "note": "Taken literally the statement is false of the code, which is proved: the weights that turn mask galaxies into a prediction are not normalized (the luminosity function is not, and the chi-squared density is only over the chi-squared allowed): the mean prediction is the total over the grid divided by the total of the weights, so every local background is off by that factor, and right only if it is 1 (C99_weights_refuted); with mask galaxies made for a smaller annulus there are none in the configured one, and the run stops with a ZeroDivisionError (C99_annulus_refuted). What does hold is proved without conditions in C99_ratio, C99_counted, C99_predicted, C99_succeeds."
  },
  {
   "property": "C100",
   "status": "proved",
   "theorems": [
    "C100_depth",
    "C100_rejected"
   ],
   "note": ""
  },
  {
   "property": "C101",
   "status": "partial",
   "theorems": [
    "C101_start",
    "C101_empty_refuted",
    "C101_constant_refuted"
   ],
   "note": "Taken literally the statement is false of the code, which is proved: a node with no galaxy around it stops the calibration with an IndexError (C101_empty_refuted); the number of constant cuts is not checked with the other settings of the selections, so the calibration stops with an IndexError at the first selection without one (C101_constant_refuted). What does hold is proved without conditions in C101_start."
  },
  {
   "property": "C102",
   "status": "partial",
   "theorems": [
    "C102_zero",
    "C102_nothing_kept",
    "C102_range",
    "C102_top_refuted"
   ],
   "note": "Taken literally the statement is false of the code, which is proved: galaxies sampled in the last 0.0001 of the range are in no bin, while the volume of the last bin is the full one (C102_top_refuted). What does hold is proved without conditions in C102_zero, C102_nothing_kept, C102_range."
  },
  {
   "property": "C103",
   "status": "partial",
   "theorems": [
    "C103_own",
    "C103_read",
    "C103_only_partial",
    "C103_stale_refuted",
    "C103_same_name_refuted"
   ],
   "note": "Taken literally the statement is false of the code, which is proved: selections of an older calibration file that are no longer configured stay in the file, and catalogs are made for them again (C103_stale_refuted); two selections of the same name are both calibrated, and only the second can be used afterwards (C103_same_name_refuted). What does hold is proved without conditions in C103_own, C103_read and under the condition in the statement of C103_only_partial."
  },
  {
   "property": "C104",
   "status": "partial",
   "theorems": [
    "C104_sample_partial",
    "C104_zmax_refuted",
    "C104_training"
   ],
   "note": "Taken literally the statement is false of the code, which is proved: the range of the galaxies that are read is that of redmagic_zrange, also if a selection is configured to go higher: with 0.1 to 0.6 and a selection up to 0.9, no galaxy at redshift 0.8 is read, which is within the range of its cost (C104_zmax_refuted). What does hold is proved without conditions in C104_training and under the condition in the statement of C104_sample_partial."
  },
  {
   "property": "C105",
   "status": "partial",
   "theorems": [
    "C105_closer",
    "C105_non_members",
    "C105_weights_refuted"
   ],
   "note": "Taken literally the statement is false of the code, which is proved: the weights of the galaxies have no effect on the fit: whatever (positive) weights are given, the cost of any set of corrections relative to any other is the one without weights, as the likelihood is multiplied by the weight instead of its logarithm (C105_weights_refuted). What does hold is proved without conditions in C105_closer, C105_non_members."
  },
  {
   "property": "C106",
   "status": "partial",
   "theorems": [
    "C106_fit",
    "C106_nothing",
    "C106_lengths_refuted",
    "C106_nodes"
   ],
   "note": "Taken literally the statement is false of the code, which is proved: the starting values of each set are not checked against its nodes, only their total number: values for the offset and for the slope that are one too many and one too few are accepted, and the last of the first is taken as the first of the second (C106_lengths_refuted). What does hold is proved without conditions in C106_fit, C106_nothing, C106_nodes."
  },
  {
   "property": "C107",
   "status": "partial",
   "theorems": [
    "C107_recorded",
    "C107_sample",
    "C107_ties_refuted"
   ],
   "note": "Taken literally the statement is false of the code, which is proved: at least one galaxy is always left out, and all those of the same likelihood with it: if all galaxies have the same likelihood none is used (C107_ties_refuted). What does hold is proved without conditions in C107_recorded, C107_sample."
  },
  {
   "property": "C108",
   "status": "partial",
   "theorems": [
    "C108_populated",
    "C108_single_refuted",
    "C108_outliers_refuted"
   ],
   "note": "Taken literally the statement is false of the code, which is proved: if the redshift range has a single node (narrower than about half the node size) the calibration stops with a ValueError instead (C108_single_refuted); the check is made before the outliers are removed: it can pass although a bin has no cluster left for the fit (C108_outliers_refuted). What does hold is proved without conditions in C108_populated."
  },
  {
   "property": "C109",
   "status": "partial",
   "theorems": [
    "C109_values",
    "C109_disjoint",
    "C109_nearest",
    "C109_first_refuted"
   ],
   "note": "Taken literally the statement is false of the code, which is proved: a first node with too few galaxies starts from zero, whatever the values at the other nodes are (for the pivot magnitudes and the colors the fit then starts far from them) (C109_first_refuted). What does hold is proved without conditions in C109_values, C109_disjoint, C109_nearest."
  },
  {
   "property": "C110",
   "status": "partial",
   "theorems": [
    "C110_redshifts",
    "C110_final",
    "C110_errors_refuted",
    "C110_scale_refuted",
    "C110_unscaled_partial",
    "C110_exact_partial",
    "C110_single_refuted",
    "C110_several_partial"
   ],
   "note": "Taken literally the statement is false of the code, which is proved: while column k is fitted the errors contain, besides the scatter of the columns before it, a thousandth in quadrature for every column that has not been fitted yet, because the scatter of an empty column is clipped to 0.001 (C110_errors_refuted); the fit takes the richness without the scale factor (Lambda/scaleval) and the correction is applied with it: the offset applied to a cluster differs from the one fitted for it by the slope times the logarithm of the scale factor (C110_scale_refuted); with a single iteration (calib_zlambda_correct_niter: 1) the correction cannot be made: the array with one column is not reduced to it, and the spline's values do not fit (C110_single_refuted). What does hold is proved without conditions in C110_redshifts, C110_final and under the condition in the statement of C110_unscaled_partial, C110_exact_partial, C110_several_partial."
  },
  {
   "property": "C111",
   "status": "partial",
   "theorems": [
    "C111_last_partial",
    "C111_others_refuted",
    "C111_none_refuted"
   ],
   "note": "Taken literally the statement is false of the code, which is proved: only the last cluster is checked (the loop's variable is used instead of the catalog): negative redshifts of all others pass (C111_others_refuted); without a cluster above the richness limit the variable is not defined, and the calibration stops with a NameError (C111_none_refuted). What does hold is proved under the condition in the statement of C111_last_partial."
  },
  {
   "property": "C112",
   "status": "partial",
   "theorems": [
    "C112_system",
    "C112_nodes",
    "C112_natural",
    "C112_linear",
    "C112_line",
    "C112_fixextrap",
    "C112_positive_refuted"
   ],
   "note": "Taken literally the statement is false of the code, which is proved: positive node values do not give positive values in between, or outside the nodes without fixextrap, so that a calibrated width, scatter or error scale can come out negative between its nodes (C112_positive_refuted). What does hold is proved without conditions in C112_system, C112_nodes, C112_natural, C112_linear, C112_line, C112_fixextrap."
  },
  {
   "property": "C113",
   "status": "partial",
   "theorems": [
    "C113_values_partial",
    "C113_slope_refuted",
    "C113_absent",
    "C113_first",
    "C113_later_refuted"
   ],
   "note": "Taken literally the statement is false of the code, which is proved: the slope with richness of the brightest satellite's magnitude is read from the column of its mean (C113_slope_refuted); so that all later iterations are calibrated, and their files written, with the mean in place of the slope (C113_later_refuted). What does hold is proved without conditions in C113_absent, C113_first and under the condition in the statement of C113_values_partial."
  },
  {
   "property": "C114",
   "status": "partial",
   "theorems": [
    "C114_start",
    "C114_fits",
    "C114_kept",
    "C114_same_refuted"
   ],
   "note": "Taken literally the statement is false of the code, which is proved: the catalogs are told apart by their names: the same file for both is taken twice for the foreground, and the satellites keep the old values (C114_same_refuted). What does hold is proved without conditions in C114_start, C114_fits, C114_kept."
  },
  {
   "property": "C115",
   "status": "partial",
   "theorems": [
    "C115_brightest",
    "C115_succeeds",
    "C115_count_refuted"
   ],
   "note": "Taken literally the statement is false of the code, which is proved: for richness lambda only lambda - 1 galaxies are drawn (C115_count_refuted). What does hold is proved without conditions in C115_brightest, C115_succeeds."
  },
  {
   "property": "C116",
   "status": "partial",
   "theorems": [
    "C116_magnitude_partial",
    "C116_magnitude_refuted",
    "C116_width_partial",
    "C116_width_refuted"
   ],
   "note": "Taken literally the statement is false of the code, which is proved: for others it is not: the calibration removes the scale factor from the richness and the centering does not (C116_magnitude_refuted); which limits Lambda/scaleval in the calibration and Lambda in the centering: for a cluster of the calibration with Lambda above it the width used is larger than the one fitted (C116_width_refuted). What does hold is proved under the condition in the statement of C116_magnitude_partial, C116_width_partial."
  },
  {
   "property": "C117",
   "status": "partial",
   "theorems": [
    "C117_distribution",
    "C117_zero_partial",
    "C117_first_refuted",
    "C117_nothing_refuted"
   ],
   "note": "Taken literally the statement is false of the code, which is proved: the first point is sampled for the lowest 1/n of the deviates even if its density is zero; for the luminosity function of the centering calibration that is the brightest magnitude (C117_first_refuted); Without a density there is no sample: an IndexError (C117_nothing_refuted). What does hold is proved without conditions in C117_distribution and under the condition in the statement of C117_zero_partial."
  },
  {
   "property": "C118",
   "status": "partial",
   "theorems": [
    "C118_start",
    "C118_start_near",
    "C118_grid",
    "C118_start_exposure",
    "C118_no_worse",
    "C118_allowed",
    "C118_consistent",
    "C118_fraction",
    "C118_boot_refuted",
    "C118_noise_refuted",
    "C118_outliers"
   ],
   "note": "Taken literally the statement is false of the code, which is proved: with useBoot the limiting magnitude and the exposure time are replaced by those of the trials, the limiting flux and the sky are not (C118_boot_refuted); noise is added to all magnitudes with a single draw, about the number of magnitudes rather than zero: equal magnitudes stay equal, and for a draw at the middle of its distribution every one of n galaxies is n times its noise too bright (C118_noise_refuted). What does hold is proved without conditions in C118_start, C118_start_near, C118_grid, C118_start_exposure, C118_no_worse, C118_allowed, C118_consistent, C118_fraction, C118_outliers."
  },
  {
   "property": "C119",
   "status": "partial",
   "theorems": [
    "C119_selected",
    "C119_none_refuted",
    "C119_covers_partial",
    "C119_one_colour",
    "C119_bound_refuted",
    "C119_range_partial",
    "C119_range_refuted",
    "C119_twice_refuted",
    "C119_too_many_colours"
   ],
   "note": "Taken literally the statement is false of the code, which is proved: with no galaxy in range the selection ends with an IndexError (C119_none_refuted); a galaxy with a redshift equal to a bound between two colours is inside none and never selected, however red (C119_bound_refuted); below that redshifts of the configured range are left out (C119_range_refuted); a galaxy with two spectra is in the catalog twice (C119_twice_refuted). What does hold is proved without conditions in C119_selected, C119_one_colour, C119_too_many_colours and under the condition in the statement of C119_covers_partial, C119_range_partial."
  },
  {
   "property": "C120",
   "status": "partial",
   "theorems": [
    "C120_names",
    "C120_bands_partial",
    "C120_missing",
    "C120_reference_partial",
    "C120_modes",
    "C120_conflict_refuted",
    "C120_other_refuted",
    "C120_outside",
    "C120_refused"
   ],
   "note": "Taken literally the statement is false of the code, which is proved: of two bands in the same place the last one is taken, silently (C120_conflict_refuted); any name with \"_ind\" in it is taken for that of a band, as match_index for the band \"match\" (C120_other_refuted). What does hold is proved without conditions in C120_names, C120_missing, C120_modes, C120_outside, C120_refused and under the condition in the statement of C120_bands_partial, C120_reference_partial."
  },
  {
   "property": "C121",
   "status": "partial",
   "theorems": [
    "C121_range",
    "C121_sparse_refuted",
    "C121_diag",
    "C121_numbers",
    "C121_off",
    "C121_complete",
    "C121_kept",
    "C121_crash_refuted"
   ],
   "note": "Taken literally the statement is false of the code, which is proved: when no bin of a colour has more than the asked number of galaxies, the generation ends with the ValueError of an empty minimum rather than with a message (C121_sparse_refuted); the file is appended to, pair by pair, under its final name: after an interruption a later run finds it, takes it for complete and leaves pairs of colours out (C121_crash_refuted). What does hold is proved without conditions in C121_range, C121_diag, C121_numbers, C121_off, C121_complete, C121_kept."
  },
  {
   "property": "C122",
   "status": "partial",
   "theorems": [
    "C122_off",
    "C122_nonneg",
    "C122_diag_refuted"
   ],
   "note": "Taken literally the statement is false of the code, which is proved: the normalisation of a table of one colour is the sum of its stored values times the ratio of the two bin sizes, not times the size of a bin: for a colour with the same density everywhere the densities that are looked up integrate to 1/25 (C122_diag_refuted). What does hold is proved without conditions in C122_off, C122_nonneg."
  },
  {
   "property": "C123",
   "status": "partial",
   "theorems": [
    "C123_roundtrip",
    "C123_missing",
    "C123_missing_error",
    "C123_given",
    "C123_fields",
    "C123_covers_partial",
    "C123_covers_refuted",
    "C123_lup_partial",
    "C123_lup_refuted"
   ],
   "note": "Taken literally the statement is false of the code, which is proved: a range from below 0.01 is cut there, and one beyond the template's last redshift is cut at that, without a message: the parameter file then says less than the configuration (C123_covers_refuted); the calibration looks at the first b value, the reader at the smallest: with a zero among the others the parameters are fitted with a correction for luptitudes and used without (C123_lup_refuted). What does hold is proved without conditions in C123_roundtrip, C123_missing, C123_missing_error, C123_given, C123_fields and under the condition in the statement of C123_covers_partial, C123_lup_partial."
  },
  {
   "property": "C124",
   "status": "partial",
   "theorems": [
    "C124_sample",
    "C124_colour",
    "C124_empty_refuted",
    "C124_ratio",
    "C124_volume"
   ],
   "note": "Taken literally the statement is false of the code, which is proved: only the first of the two samples is checked: when no galaxy passes the colour cut, the pivot magnitudes and colours start at zero at every node, and nothing is reported (C124_empty_refuted). What does hold is proved without conditions in C124_sample, C124_colour, C124_ratio, C124_volume."
  },
  {
   "property": "C125",
   "status": "partial",
   "theorems": [
    "C125_galaxies_partial",
    "C125_mode_partial",
    "C125_mode_refuted",
    "C125_range",
    "C125_result",
    "C125_required",
    "C125_not_required",
    "C125_colors",
    "C125_depth_refuted",
    "C125_randoms_refuted",
    "C125_randoms",
    "C125_runs",
    "C125_plain"
   ],
   "note": "Taken literally the statement is false of the code, which is proved: for a galaxy file that is not in pixels the cuts are dropped when temporary files are to be used: the run works on all galaxies, whatever their magnitude and chi-squared (C125_mode_refuted); whatever goes wrong in reading the depth map - a missing file, a damaged one, a wrong setting - is swallowed, and the run goes on with depths from the galaxies (C125_depth_refuted); the run for the mask of the randoms does not say whether galaxies are cut to the range of the background; without a depth file it reads galaxies and always ends with an AttributeError (C125_randoms_refuted). What does hold is proved without conditions in C125_range, C125_result, C125_required, C125_not_required, C125_colors, C125_randoms, C125_runs, C125_plain and under the condition in the statement of C125_galaxies_partial, C125_mode_partial."
  },
  {
   "property": "C126",
   "status": "partial",
   "theorems": [
    "C126_matched",
    "C126_single_partial",
    "C126_nearest_refuted"
   ],
   "note": "Taken literally the statement is false of the code, which is proved: all galaxies within a second of arc are matched, not the nearest: with two of them the last in the order of the matches counts, so that another order gives other magnitudes (C126_nearest_refuted). What does hold is proved without conditions in C126_matched and under the condition in the statement of C126_single_partial."
  },
  {
   "property": "C127",
   "status": "partial",
   "theorems": [
    "C127_same_partial",
    "C127_samples_refuted",
    "C127_outside_refuted",
    "C127_cost"
   ],
   "note": "Taken literally the statement is false of the code, which is proved: the fit always corrects the samples it counts, although the selection corrects them only if told so (the setting is given to the fit and not looked at): the density that was calibrated is not that of the samples in the catalog (C127_samples_refuted); the cuts are fitted with splines that go on beyond the last node and selected with splines that do not: wherever the two differ there are galaxies that the fit counts and the selection drops, or the other way (C127_outside_refuted). What does hold is proved without conditions in C127_cost and under the condition in the statement of C127_same_partial."
  },
  {
   "property": "C128",
   "status": "partial",
   "theorems": [
    "C128_off",
    "C128_afterburner_partial",
    "C128_constant",
    "C128_training",
    "C128_bounds",
    "C128_last_refuted",
    "C128_labels_partial",
    "C128_labels_refuted",
    "C128_labels_one_partial",
    "C128_needed"
   ],
   "note": "Taken literally the statement is false of the code, which is proved: the corrections are fitted once more after the last fit of the cuts, and it is these that are recorded: unless the iterations have come to rest (they are always five), the recorded cuts are not those for the recorded corrections (C128_last_refuted); a galaxy that is a member of several clusters is given the redshift of the one that comes last in the file, however unlikely it belongs to that one (C128_labels_refuted). What does hold is proved without conditions in C128_off, C128_constant, C128_training, C128_bounds, C128_needed and under the condition in the statement of C128_afterburner_partial, C128_labels_partial, C128_labels_one_partial."
  },
  {
   "property": "C129",
   "status": "proved",
   "theorems": [
    "C129_exact",
    "C129_once",
    "C129_spec"
   ],
   "note": ""
  },
  {
   "property": "C130",
   "status": "partial",
   "theorems": [
    "C130_members_partial",
    "C130_members_refuted",
    "C130_plots_refuted",
    "C130_nside_refuted"
   ],
   "note": "Taken literally the statement is false of the code, which is proved: members are not cut with the clusters: if one cluster of a pixel is kept, the members of all its clusters are written, also of those that are left to the neighboring pixel; those clusters' members are there twice (C130_members_refuted); with plots, as is the default, the consolidation always ends in an error after the files are written, by a name that is not defined; without plots it ends well (C130_plots_refuted); the resolution of the pixels is that of the first file; with files of another resolution in the directory - of another run with the same base name - clusters are judged by the wrong pixels and can be lost (C130_nside_refuted). What does hold is proved under the condition in the statement of C130_members_partial."
  },
  {
   "property": "C131",
   "status": "proved",
   "theorems": [
    "C131_region",
    "C131_border",
    "C131_whole",
    "C131_sound",
    "C131_refused"
   ],
   "note": ""
  },
  {
   "property": "C132",
   "status": "partial",
   "theorems": [
    "C132_depth",
    "C132_border",
    "C132_vlim_partial",
    "C132_vlim_refuted"
   ],
   "note": "Taken literally the statement is false of the code, which is proved: the areas of a volume-limited survey are of everything that was read, not of the region: for a region of pixels smaller than those of the coverage of the map, the whole of these counts. (The area at a depth is cut to the region.) (C132_vlim_refuted). What does hold is proved without conditions in C132_depth, C132_border and under the condition in the statement of C132_vlim_partial."
  },
  {
   "property": "C133",
   "status": "proved",
   "theorems": [
    "C133_shape",
    "C133_nothing",
    "C133_objective",
    "C133_better",
    "C133_obs",
    "C133_obs_errors"
   ],
   "note": ""
  },
  {
   "property": "C134",
   "status": "partial",
   "theorems": [
    "C134_scatter",
    "C134_closer_partial",
    "C134_closer_refuted"
   ],
   "note": "Taken literally the statement is false of the code, which is proved: a cluster so far from the correction that its exponential underflows counts as a fixed -100, so it counts much less than a cluster that is nearer: from there the fit gains by moving away from it (C134_closer_refuted). What does hold is proved without conditions in C134_scatter and under the condition in the statement of C134_closer_partial."
  },
  {
   "property": "C135",
   "status": "partial",
   "theorems": [
    "C135_scaled",
    "C135_recovered",
    "C135_single",
    "C135_none",
    "C135_band",
    "C135_positive_partial",
    "C135_positive_refuted"
   ],
   "note": "Taken literally the statement is false of the code, which is proved: the bounds of the fit let the ratio vanish (or turn negative) for magnitudes a tenth from the pivot, and the sign of a ratio makes no difference to the fit: corrected errors can be zero or negative (C135_positive_refuted). What does hold is proved without conditions in C135_scaled, C135_recovered, C135_single, C135_none, C135_band and under the condition in the statement of C135_positive_partial."
  },
  {
   "property": "C136",
   "status": "partial",
   "theorems": [
    "C136_rows",
    "C136_chain",
    "C136_cushion_partial",
    "C136_cushion_refuted"
   ],
   "note": "Taken literally the statement is false of the code, which is proved: the lower end of the widened range is never below 0.05, so for a range that starts lower, keeping the redshifts of the seeds loses the clusters between the configured start and 0.05 instead of adding some (C136_cushion_refuted). What does hold is proved without conditions in C136_rows, C136_chain and under the condition in the statement of C136_cushion_partial."
  },
  {
   "property": "C137",
   "status": "partial",
   "theorems": [
    "C137_positive_partial",
    "C137_positive_refuted",
    "C137_core",
    "C137_far",
    "C137_form",
    "C137_radfactor",
    "C137_schechter",
    "C137_filter",
    "C137_luminosity"
   ],
   "note": "Taken literally the statement is false of the code, which is proved: a core not smaller than the scale radius gives no number in the core (C137_positive_refuted). What does hold is proved without conditions in C137_core, C137_far, C137_form, C137_radfactor, C137_schechter, C137_filter, C137_luminosity and under the condition in the statement of C137_positive_partial."
  },
  {
   "property": "C138",
   "status": "partial",
   "theorems": [
    "C138_written",
    "C138_writable",
    "C138_softening_refuted",
    "C138_round_trip",
    "C138_empty"
   ],
   "note": "Taken literally the statement is false of the code, which is proved: the softening parameters b are an array option that is None unless the galaxy file or the configuration gives them, and no galaxy file that is a single table gives them: such a configuration loads but cannot be written (C138_softening_refuted). What does hold is proved without conditions in C138_written, C138_writable, C138_round_trip, C138_empty."
  },
  {
   "property": "C139",
   "status": "partial",
   "theorems": [
    "C139_run_configuration",
    "C139_background",
    "C139_region_background_refuted",
    "C139_made",
    "C139_read_back",
    "C139_relative_refuted"
   ],
   "note": "Taken literally the statement is false of the code, which is proved: without calib_make_full_bkg, a run on the whole sky is given the background of the region of the calibration (C139_region_background_refuted); only the galaxy and the spectroscopic file and files made by the calibration become absolute paths. The output directory, the depth map, the mask, the volume-limit depth maps, the random points and the training spectra are left as they were: relative to the directory of the calibration, although the file is written to that of the run; and the output directory stays that of the calibration (C139_relative_refuted). What does hold is proved without conditions in C139_run_configuration, C139_background, C139_made, C139_read_back."
  },
  {
   "property": "C140",
   "status": "partial",
   "theorems": [
    "C140_run",
    "C140_arguments",
    "C140_kept",
    "C140_succeeds",
    "C140_restored_refuted",
    "C140_nothing_refuted",
    "C140_nothing",
    "C140_percolation_like_refuted"
   ],
   "note": "Taken literally the statement is false of the code, which is proved: a run that fails in a worker leaves the configuration with its seed file and the resolution of the tiles, so that a second run on the same configuration is another one (C140_restored_refuted); a run in which no pixel gives a catalog does not give an empty catalog, it fails (C140_nothing_refuted); the likelihood catalog cannot be asked for with percolation_only, since those workers never name one (C140_percolation_like_refuted). What does hold is proved without conditions in C140_run, C140_arguments, C140_kept, C140_succeeds, C140_nothing."
  },
  {
   "property": "C141",
   "status": "partial",
   "theorems": [
    "C141_names",
    "C141_percolation_names_partial",
    "C141_percolation_names_refuted",
    "C141_worker",
    "C141_restart_partial",
    "C141_restart_refuted",
    "C141_killed_late"
   ],
   "note": "Taken literally the statement is false of the code, which is proved: the resolution is not part of those names: after a change of the division the file of another tile is taken for the tile with the same number (C141_percolation_names_refuted); killed while writing, the worker never finishes the pixel: a catalog begun or without members counts as done in every later execution (C141_restart_refuted). What does hold is proved without conditions in C141_names, C141_worker, C141_killed_late and under the condition in the statement of C141_percolation_names_partial, C141_restart_partial."
  },
  {
   "property": "C142",
   "status": "partial",
   "theorems": [
    "C142_values",
    "C142_division",
    "C142_fails",
    "C142_few_refuted",
    "C142_samples_partial",
    "C142_samples_refuted"
   ],
   "note": "Taken literally the statement is false of the code, which is proved: with the default chunk size a catalog with fewer galaxies than processes cannot be run (C142_few_refuted); the processes inherit the parent's random generator, so the first galaxy of the first chunk of EVERY process is sampled with the same random numbers: the redshift samples of different galaxies are not independent (C142_samples_refuted). What does hold is proved without conditions in C142_values, C142_division, C142_fails and under the condition in the statement of C142_samples_partial."
  },
  {
   "property": "C143",
   "status": "partial",
   "theorems": [
    "C143_fractions",
    "C143_never_more",
    "C143_no_loss",
    "C143_all_pass_partial",
    "C143_nothing_known_refuted",
    "C143_half_bin_refuted"
   ],
   "note": "Taken literally the statement is false of the code, which is proved: at an edge below the lowest random point nothing is known, yet the fit is told that the whole area is lost (C143_nothing_known_refuted); the fraction of the points below an edge is fitted at the middle of the bin that ends there, half a bin too low (C143_half_bin_refuted). What does hold is proved without conditions in C143_fractions, C143_never_more, C143_no_loss and under the condition in the statement of C143_all_pass_partial."
  },
  {
   "property": "C144",
   "status": "partial",
   "theorems": [
    "C144_vlim_names",
    "C144_vlim_partial",
    "C144_vlim_stale_refuted",
    "C144_weights_names",
    "C144_weights_partial",
    "C144_zrange_refuted"
   ],
   "note": "Taken literally the statement is false of the code, which is proved: a second cut within the same tenth silently uses the mask of the first, and so does a mask asked for without depth (use_geometry) after one with, and the reverse (C144_vlim_stale_refuted); the redshift range given as argument is not part of the name, so the files returned for a second range hold (in the table that is read) the random points and areas of the first (C144_zrange_refuted). What does hold is proved without conditions in C144_vlim_names, C144_weights_names and under the condition in the statement of C144_vlim_partial, C144_weights_partial."
  },
  {
   "property": "C145",
   "status": "partial",
   "theorems": [
    "C145_depths",
    "C145_lengths",
    "C145_fractions_partial",
    "C145_fraction_outside_refuted",
    "C145_zmax_partial",
    "C145_zmax_pole_refuted",
    "C145_geometry",
    "C145_radmask",
    "C145_converted"
   ],
   "note": "Taken literally the statement is false of the code, which is proved: the good fraction of a position outside the map is not 0 but the number for \"unseen\", less than minus 1e30 (C145_fraction_outside_refuted); the redshift limit of a list with one position beyond a pole is an exception, though such positions are meant to have the limit 0 (the depth lookup clips the declinations first, this one does not) (C145_zmax_pole_refuted). What does hold is proved without conditions in C145_depths, C145_lengths, C145_geometry, C145_radmask, C145_converted and under the condition in the statement of C145_fractions_partial, C145_zmax_partial."
  },
  {
   "property": "C146",
   "status": "partial",
   "theorems": [
    "C146_bands_partial",
    "C146_colour_partial",
    "C146_blanks_refuted",
    "C146_dash_refuted",
    "C146_single_refuted",
    "C146_file"
   ],
   "note": "Taken literally the statement is false of the code, which is proved: with a blank after the commas of the BANDS entry, as in \"g, r\", no colour of the second band is found under its name (C146_blanks_refuted); bands with a dash in their names are mixed up: with the bands \"a-b\" and \"c\", the colour of \"a\" and \"b-c\" is given, which are no bands of the template (C146_dash_refuted); a BANDS entry with a single name of several letters is read as that many bands (C146_single_refuted). What does hold is proved without conditions in C146_file and under the condition in the statement of C146_bands_partial, C146_colour_partial."
  },
  {
   "property": "C147",
   "status": "partial",
   "theorems": [
    "C147_never_refuted",
    "C147_sides",
    "C147_side_one",
    "C147_bytes",
    "C147_largest_partial",
    "C147_finer",
    "C147_calls_refuted",
    "C147_empty"
   ],
   "note": "Taken literally the statement is false of the code, which is proved: no memory is ever predicted: the tile of each file is looked up with the function for the opposite direction, whose third argument is then given twice, and Python refuses the call for every table (C147_never_refuted); The calls of the method: the first is accepted, the second gives the argument lonlat or nest twice and is not; without the third positional argument it would be accepted, whatever is given by name (C147_calls_refuted). What does hold is proved without conditions in C147_sides, C147_side_one, C147_bytes, C147_finer, C147_empty and under the condition in the statement of C147_largest_partial."
  },
  {
   "property": "C148",
   "status": "partial",
   "theorems": [
    "C148_grid",
    "C148_covered_partial",
    "C148_rich_refuted"
   ],
   "note": "Taken literally the statement is false of the code, which is proved: for every setting with increasing radii there are rich clusters whose radius is beyond all tabulated ones, where the fitted cubic is extrapolated; with the default r0 = 1, beta = 0.2 and step 0.1 those of richness 400 are (C148_rich_refuted). What does hold is proved without conditions in C148_grid and under the condition in the statement of C148_covered_partial."
  },
  {
   "property": "C149",
   "status": "partial",
   "theorems": [
    "C149_uniform",
    "C149_centre_partial",
    "C149_off_sky_refuted",
    "C149_last_neighbour_refuted"
   ],
   "note": "Taken literally the statement is false of the code, which is proved: a random centre can lie beyond the pole, and at a negative right ascension: for a cluster whose radius reaches the pole, respectively right ascension 0, some random numbers give such positions (C149_off_sky_refuted); the check that the centre is a free galaxy, run after a random centre was chosen, looks at the last neighbour of the cluster, whichever galaxy that is: a cluster rich enough is rejected exactly if that one is taken (C149_last_neighbour_refuted). What does hold is proved without conditions in C149_uniform and under the condition in the statement of C149_centre_partial."
  },
  {
   "property": "C150",
   "status": "partial",
   "theorems": [
    "C150_needs",
    "C150_masks",
    "C150_mask_found",
    "C150_handed_over_partial",
    "C150_handed_over_refuted",
    "C150_written",
    "C150_mask_missing"
   ],
   "note": "Taken literally the statement is false of the code, which is proved: with any other output directory the run does not read the configuration written for it, but a file of that name in the working directory: an old one if there is, else the run fails after the calibration (C150_handed_over_refuted). What does hold is proved without conditions in C150_needs, C150_masks, C150_mask_found, C150_written, C150_mask_missing and under the condition in the statement of C150_handed_over_partial."
  },
  {
   "property": "C151",
   "status": "partial",
   "theorems": [
    "C151_passes",
    "C151_runs",
    "C151_reported_partial",
    "C151_unset_refuted",
    "C151_parts_refuted"
   ],
   "note": "Taken literally the statement is false of the code, which is proved: a file that is not configured at all is not reported as missing: the check fails with TypeError (C151_unset_refuted); asked for the parts of a missing background file alone, the check fails with the library's OSError (C151_parts_refuted). What does hold is proved without conditions in C151_passes, C151_runs and under the condition in the statement of C151_reported_partial."
  },
  {
   "property": "C152",
   "status": "proved",
   "theorems": [
    "C152_foreground",
    "C152_best",
    "C152_no_minimum",
    "C152_magnitude",
    "C152_magnitude_finite",
    "C152_magnitude_sign",
    "C152_central",
    "C152_central_sign",
    "C152_magnitude_zero"
   ],
   "note": ""
  },
  {
   "property": "C153",
   "status": "partial",
   "theorems": [
    "C153_curve_partial",
    "C153_range",
    "C153_sign_refuted",
    "C153_gauss"
   ],
   "note": "Taken literally the statement is false of the code, which is proved: a curve with the opposite width is the same curve, so the fit may end at either; at the negative one the call fails with IndexError if no bin lies beyond five widths on either side, as is usual, and otherwise it returns a negative width (C153_sign_refuted). What does hold is proved without conditions in C153_range, C153_gauss and under the condition in the statement of C153_curve_partial."
  },
  {
   "property": "C154",
   "status": "partial",
   "theorems": [
    "C154_redshift",
    "C154_neighbours",
    "C154_copy_partial",
    "C154_row_refuted",
    "C154_background_refuted",
    "C154_unset_refuted",
    "C154_background"
   ],
   "note": "Taken literally the statement is false of the code, which is proved: every field of the catalogue is 0 in the copy, the position and the richness among them (C154_row_refuted); the background of redshifts can be evaluated on a cluster but not on its copy (C154_background_refuted); a cluster without a redshift cannot be copied (C154_unset_refuted). What does hold is proved without conditions in C154_redshift, C154_neighbours, C154_background and under the condition in the statement of C154_copy_partial."
  },
  {
   "property": "C155",
   "status": "partial",
   "theorems": [
    "C155_exact_partial",
    "C155_invalid",
    "C155_correction_refuted",
    "C155_low_refuted",
    "C155_clipped_refuted"
   ],
   "note": "Taken literally the statement is false of the code, which is proved: the richness in the middle is that of the redshift before the correction, the two others are around the corrected redshift: for a richness growing like exp(b z), without any curvature, a correction by d is stored as the second derivative 2 b d / eps^2 (C155_correction_refuted); a corrected redshift below the step stops the run (C155_low_refuted); below the step plus 0.01 the lower redshift is taken as 0.01, but the difference is still divided by twice the step (C155_clipped_refuted). What does hold is proved without conditions in C155_invalid and under the condition in the statement of C155_exact_partial."
  },
  {
   "property": "C156",
   "status": "partial",
   "theorems": [
    "C156_average",
    "C156_centres_partial",
    "C156_mask_refuted",
    "C156_failed_refuted"
   ],
   "note": "Taken literally the statement is false of the code, which is proved: the mask is not set for the other centres; at one whose surroundings are masked the richness is not corrected for it. Here the mask cuts off positions below 0 and the corrected richness is 10 times the number of points over the number of unmasked ones (C156_mask_refuted); a centre where the richness cannot be computed counts with richness -1 (C156_failed_refuted). What does hold is proved without conditions in C156_average and under the condition in the statement of C156_centres_partial."
  },
  {
   "property": "C157",
   "status": "partial",
   "theorems": [
    "C157_start",
    "C157_name_partial",
    "C157_name_refuted",
    "C157_bare_refuted",
    "C157_defaults",
    "C157_keys",
    "C157_dict_refuted",
    "C157_split_refuted",
    "C157_read",
    "C157_errors"
   ],
   "note": "Taken literally the statement is false of the code, which is proved: the dot of the pattern is not escaped, so that \"\u2026_master_tableXfit\" is accepted, and the random points are written to another file than the configured one, which never appears (C157_name_refuted); a name without a directory passes the constructor, and is refused only when the generation begins (C157_bare_refuted); the missing keys are written into the caller's own dictionary, also when the construction fails (C157_dict_refuted); splitting random points never works: the module does not import os, and the call ends in a NameError (or in a RuntimeError for a finished catalogue); the same call on galaxies, and appending random points, work for every maker not finished whose table does not exist (C157_split_refuted). What does hold is proved without conditions in C157_start, C157_defaults, C157_keys, C157_read, C157_errors and under the condition in the statement of C157_name_partial."
  },
  {
   "property": "C158",
   "status": "partial",
   "theorems": [
    "C158_sources",
    "C158_fails",
    "C158_limit_partial",
    "C158_limit_refuted",
    "C158_redmagic_partial",
    "C158_names_refuted",
    "C158_number"
   ],
   "note": "Taken literally the statement is false of the code, which is proved: a mask given by the caller is used whatever limit it is for; the limit which enters the names of the weights is the one of the configuration or of the other argument (C158_limit_refuted); a file name for the mask is always an AttributeError, and a file name for the catalogue a NameError, although both are accepted by the check of the types (C158_names_refuted). What does hold is proved without conditions in C158_sources, C158_fails, C158_number and under the condition in the statement of C158_limit_partial, C158_redmagic_partial."
  },
  {
   "property": "C159",
   "status": "partial",
   "theorems": [
    "C159_mask_partial",
    "C159_file",
    "C159_maker_refuted",
    "C159_none",
    "C159_config",
    "C159_mode_refuted",
    "C159_config_error"
   ],
   "note": "Taken literally the statement is false of the code, which is proved: a mask given to the maker of galaxies is never applied. In mode 3 the construction always fails, at the latest with a TypeError, as the stand-in for the configuration has a number for the list of pixels; in every other mode, also in the default one, all galaxies are kept (C159_maker_refuted); any other mode passes the check of the configuration, and there is no mask at all: nothing is returned, neither an object nor an error (C159_mode_refuted). What does hold is proved without conditions in C159_file, C159_none, C159_config, C159_config_error and under the condition in the statement of C159_mask_partial."
  },
  {
   "property": "C160",
   "status": "partial",
   "theorems": [
    "C160_source",
    "C160_header",
    "C160_grid",
    "C160_tables",
    "C160_extrapolated",
    "C160_end_refuted",
    "C160_run_partial",
    "C160_run_refuted",
    "C160_nothing",
    "C160_incomplete"
   ],
   "note": "Taken literally the statement is false of the code, which is proved: the end of the range is not in the table: for a range of whole bins the last redshift is one bin below the end, and every value interpolated in the last bin of the range is that of the last redshift, instead of the spline (C160_end_refuted); a correction or a depth map which is configured and cannot be read is left out without any message: the redshifts stay uncorrected, and the run goes on as for a survey without a depth map (C160_run_refuted). What does hold is proved without conditions in C160_source, C160_header, C160_grid, C160_tables, C160_extrapolated, C160_nothing, C160_incomplete and under the condition in the statement of C160_run_partial."
  },
  {
   "property": "C161",
   "status": "proved",
   "theorems": [
    "C161_read",
    "C161_succeeds",
    "C161_finalizes"
   ],
   "note": ""
  },
  {
   "property": "C162",
   "status": "partial",
   "theorems": [
    "C162_own",
    "C162_table",
    "C162_succeeds",
    "C162_pipeline",
    "C162_again_refuted"
   ],
   "note": "Taken literally the statement is false of the code, which is proved: every run writes its table from scratch. After a second run (for another region, same redshift file) the galaxies of the first region have no redshifts any more: a read of a pixel outside the last region raises, although its redshift files are still there (C162_again_refuted). What does hold is proved without conditions in C162_own, C162_table, C162_succeeds, C162_pipeline."
  },
  {
   "property": "C163",
   "status": "partial",
   "theorems": [
    "C163_window_partial",
    "C163_names",
    "C163_once",
    "C163_restart_refuted",
    "C163_stop_refuted",
    "C163_twice_refuted",
    "C163_nopix_refuted",
    "C163_new",
    "C163_own_logger"
   ],
   "note": "Taken literally the statement is false of the code, which is proved: the flag is never taken down, so logging that was stopped cannot be started again: the second start returns without effect and all later messages are lost (C163_restart_refuted); stopping removes every handler of the logger. A second configuration with the same logger (all configurations without exactly one pixel share one) loses its log file too (C163_stop_refuted); two configurations that log to the same file (same output name and pixel) write every message twice (C163_twice_refuted); with no pixel configured (the whole sky) the default name cannot be made: the first line of a run raises IndexError unless messages are only printed (C163_nopix_refuted). What does hold is proved without conditions in C163_names, C163_once, C163_new, C163_own_logger and under the condition in the statement of C163_window_partial."
  },
  {
   "property": "C164",
   "status": "partial",
   "theorems": [
    "C164_complete",
    "C164_none",
    "C164_refused",
    "C164_log_refuted",
    "C164_interrupted_refuted",
    "C164_randoms_refuted",
    "C164_pixels",
    "C164_unsplit"
   ],
   "note": "Taken literally the statement is false of the code, which is proved: a run without random points ends without closing the log file; so does every run that raises after its start (C164_log_refuted); a pixel that cannot be read ends the run in the middle. The catalogs then hold the galaxies of the earlier pixels only and look complete; a second run without clobber refuses because of them (C164_interrupted_refuted); an existing file of random points is only noticed after the catalogs have been written. The run raises, and from then on raises because of its own catalogs, even if the file of random points is removed (C164_randoms_refuted). What does hold is proved without conditions in C164_complete, C164_none, C164_refused, C164_pixels, C164_unsplit."
  },
  {
   "property": "C165",
   "status": "partial",
   "theorems": [
    "C165_area",
    "C165_conservative",
    "C165_total",
    "C165_each",
    "C165_inside_partial",
    "C165_end_refuted",
    "C165_ends_refuted"
   ],
   "note": "Taken literally the statement is false of the code, which is proved: when the range of the calibration reaches the end of the configured redshifts, the table of areas, which ends below it, has no entry for the last node and the calibration stops with IndexError (C165_end_refuted); for the first and the last node the galaxies are counted in a bin beside the node but compared with the volume of the bin about it: where volume grows with redshift, the first is too small and the last too large (C165_ends_refuted). What does hold is proved without conditions in C165_area, C165_conservative, C165_total, C165_each and under the condition in the statement of C165_inside_partial."
  },
  {
   "property": "C166",
   "status": "partial",
   "theorems": [
    "C166_own",
    "C166_marked_partial",
    "C166_empty_refuted",
    "C166_member_refuted",
    "C166_bcg_refuted",
    "C166_no_galaxy",
    "C166_column"
   ],
   "note": "Taken literally the statement is false of the code, which is proved: with fewer candidates than slots, every empty slot carries the id of the last neighbour (at position -400, -400 and with probability 0), and in percolation that neighbour is marked as a candidate for the centre (C166_empty_refuted); a galaxy marked like that is written to the members of the cluster whatever its membership, with no free probability (C166_member_refuted); after CenteringBCG all slots have the position of the one centre, also those without a candidate (C166_bcg_refuted). What does hold is proved without conditions in C166_own, C166_no_galaxy, C166_column and under the condition in the statement of C166_marked_partial."
  },
  {
   "property": "C167",
   "status": "partial",
   "theorems": [
    "C167_catalog",
    "C167_once",
    "C167_restart_partial",
    "C167_torn_refuted"
   ],
   "note": "Taken literally the statement is false of the code, which is proved: once a worker of one tile was killed while it wrote a file, or between a catalog and its members, no number of later executions, complete or not, gives a merged catalog: each of them fails (C167_torn_refuted). What does hold is proved without conditions in C167_catalog, C167_once and under the condition in the statement of C167_restart_partial."
  },
  {
   "property": "C168",
   "status": "partial",
   "theorems": [
    "C168_output_partial",
    "C168_members_refuted",
    "C168_mixed_refuted",
    "C168_without_check"
   ],
   "note": "Taken literally the statement is false of the code, which is proved: killed while the table of members is written, every later run with the check keeps the unfinished table (C168_members_refuted); with an earlier merged catalog there, a run without the check killed before it wrote the members leaves the new catalog (or a part of it) beside the old members, and later runs with the check keep that (C168_mixed_refuted). What does hold is proved without conditions in C168_without_check and under the condition in the statement of C168_output_partial."
  },
  {
   "property": "C169",
   "status": "partial",
   "theorems": [
    "C169_jobs_partial",
    "C169_image",
    "C169_percent_refuted",
    "C169_other_file_refuted",
    "C169_braces_refuted",
    "C169_blank_refuted",
    "C169_line",
    "C169_lone_brace",
    "C169_lone_percent",
    "C169_not_a_number"
   ],
   "note": "Taken literally the statement is false of the code, which is proved: a '%' in the name of the configuration file or its directories is taken for a format in the second round of formatting (bin/redmapper_batch.py:258, 294): with '%/' no job can be created, after the job file has been opened (C169_percent_refuted); the jobs of a configuration file with '%%' in its name run another one (C169_other_file_refuted); with parsl, braces in the name are taken for an argument of the third round of formatting (parsl_templates.py:78), and the script fails; with LSF the same name works (C169_braces_refuted); names are not quoted for the shell: with a blank in a directory every job stops at its options (C169_blank_refuted). What does hold is proved without conditions in C169_image, C169_line, C169_lone_brace, C169_lone_percent, C169_not_a_number and under the condition in the statement of C169_jobs_partial."
  },
  {
   "property": "C170",
   "status": "partial",
   "theorems": [
    "C170_settings",
    "C170_choice",
    "C170_other_section_refuted",
    "C170_first_use_refuted",
    "C170_walltime",
    "C170_nodes",
    "C170_hours_refuted",
    "C170_mode_unknown",
    "C170_command_unknown"
   ],
   "note": "Taken literally the statement is false of the code, which is proved: a section without 'batch' stops the runs of every other section; an empty file stops with AttributeError (C170_other_section_refuted); on first use the script asks for its new settings to be edited and to be run again, but goes on with them: an LSF job (C170_first_use_refuted); a PBS job asks for whole hours, rounded down: less than the time given unless it is a multiple of 60 minutes, and none at all below an hour (bin/redmapper_batch.py:239) (C170_hours_refuted). What does hold is proved without conditions in C170_settings, C170_choice, C170_walltime, C170_nodes, C170_mode_unknown, C170_command_unknown."
  },
  {
   "property": "C171",
   "status": "partial",
   "theorems": [
    "C171_each",
    "C171_status_refuted",
    "C171_list_refuted"
   ],
   "note": "Taken literally the statement is false of the code, which is proved: the exit status of the commands is dropped (bin/redmapper_run_many_pixels_same_node.py:26): the script ends without an error whatever became of the pixels (C171_status_refuted); a pixel listed twice is run twice at the same time, and an empty list starts one command without a pixel, which stops (C171_list_refuted). What does hold is proved without conditions in C171_each."
  },
  {
   "property": "C172",
   "status": "partial",
   "theorems": [
    "C172_found_partial",
    "C172_order",
    "C172_used",
    "C172_directory_refuted",
    "C172_other_run_refuted",
    "C172_large_refuted",
    "C172_missing_refuted",
    "C172_mixed_refuted"
   ],
   "note": "Taken literally the statement is false of the code, which is proved: the pixel is looked for in the whole path. If it can be read in the directory, every tile gets the pixel that is read there, and all of the clusters of the other tiles are dropped as outside their pixel (C172_directory_refuted); the tiles of a run with the outbase y3_test, in the same directory, are taken into the catalogue of the run y3 (C172_other_run_refuted); the catalogue of a tile whose pixel has six digits, which there are from a resolution of 128 on, is never found (C172_large_refuted); a tile whose catalogue is missing is left out without any message: the consolidation of the others goes on (C172_missing_refuted); the resolution is read from one file only. With tiles of resolution 16 and 8 in the directory, the pixels of the latter are taken for pixels of resolution 16 (C172_mixed_refuted). What does hold is proved without conditions in C172_order, C172_used and under the condition in the statement of C172_found_partial."
  },
  {
   "property": "C173",
   "status": "partial",
   "theorems": [
    "C173_each_partial",
    "C173_names",
    "C173_outputs",
    "C173_given",
    "C173_none_refuted",
    "C173_shared_refuted",
    "C173_unfinished_refuted",
    "C173_nothing"
   ],
   "note": "Taken literally the statement is false of the code, which is proved: the volume limits cannot be switched off in the call: for an empty list the configured ones are used (C173_none_refuted); the cuts 5 and 11/2 have one file. The second cut starts it again after the first one has written, then both append: a cluster comes twice. The numbers are replaced twice, so that clusters have the numbers of others (C173_shared_refuted); if no cluster passes one of the cuts, the task stops there with a KeyError. The outputs before it are complete; its own file, if there is one of an earlier run, stays; the outputs after it have all of their clusters, but numbers that are not final (see the example) (C173_unfinished_refuted). What does hold is proved without conditions in C173_names, C173_outputs, C173_given, C173_nothing and under the condition in the statement of C173_each_partial."
  },
  {
   "property": "C174",
   "status": "partial",
   "theorems": [
    "C174_complete_partial",
    "C174_history",
    "C174_early_refuted",
    "C174_between",
    "C174_killed_refuted",
    "C174_restarted"
   ],
   "note": "Taken literally the statement is false of the code, which is proved: nothing is checked for completeness. While jobs have not begun to write, the consolidation succeeds, with the clusters of the tiles that have ended, as if the run had no other tiles (C174_early_refuted); a job that is killed after it began to write and before it wrote all is never repaired: however often it is started again, whatever the other jobs do, no consolidation succeeds (C174_killed_refuted). What does hold is proved without conditions in C174_history, C174_between, C174_restarted and under the condition in the statement of C174_complete_partial."
  },
  {
   "property": "C175",
   "status": "partial",
   "theorems": [
    "C175_magnitudes",
    "C175_color",
    "C175_recovered_partial",
    "C175_half_refuted",
    "C175_largest_refuted",
    "C175_no_nodes",
    "C175_zreds_partial",
    "C175_zreds_refuted"
   ],
   "note": "Taken literally the statement is false of the code, which is proved: the intrinsic scatter that is taken is the observed one at the lowest node. If the scatter of the whole sample is not larger than it, as in a sample whose scatter does not change with redshift, the ratio is 0.5: the stated errors are taken to be twice too large, however large they are. So it is when all stated errors are 0 (C175_half_refuted); errors that are too small by more than a factor 9.9 are corrected by 9.9, without a message (C175_largest_refuted); the extension is taken off letter by letter. Galaxy files whose names differ in letters f, i, t and dots at the end of the stem have one file of redshifts; that of dir/fit.fit has no stem (C175_zreds_refuted). What does hold is proved without conditions in C175_magnitudes, C175_color, C175_no_nodes and under the condition in the statement of C175_recovered_partial, C175_zreds_partial."
  },
  {
   "property": "C176",
   "status": "partial",
   "theorems": [
    "C176_range",
    "C176_kept",
    "C176_runs_partial",
    "C176_candidates",
    "C176_beyond_refuted",
    "C176_start",
    "C176_empty_refuted",
    "C176_window"
   ],
   "note": "Taken literally the statement is false of the code, which is proved: the galaxies are cut with the upper end of the common range, not with the largest redshifts of the runs. In a run that goes further, the galaxies more than 0.05 and one bin beyond that end are all missing (C176_beyond_refuted); a node without any galaxy about it stops the calibration, with an IndexError, although the galaxies elsewhere were enough; with a constant chi-squared there is no such error (C176_empty_refuted). What does hold is proved without conditions in C176_range, C176_kept, C176_candidates, C176_start, C176_window and under the condition in the statement of C176_runs_partial."
  },
  {
   "property": "C177",
   "status": "partial",
   "theorems": [
    "C177_three",
    "C177_richer",
    "C177_fails",
    "C177_count_refuted",
    "C177_line",
    "C177_total",
    "C177_unused_refuted"
   ],
   "note": "Taken literally the statement is false of the code, which is proved: a cluster of richness lambda is drawn with lambda - 1 galaxies: the slice ends one galaxy early. If the last galaxy that should have been drawn is the brightest of all, the trial does not return it (C177_count_refuted); the fits to the second and the third brightest galaxies are not used, but one that fails (C153) stops the calibration (C177_unused_refuted). What does hold is proved without conditions in C177_three, C177_richer, C177_fails, C177_line, C177_total."
  },
  {
   "property": "C178",
   "status": "partial",
   "theorems": [
    "C178_table",
    "C178_unit",
    "C178_integral",
    "C178_primitive",
    "C178_beyond_refuted",
    "C178_fainter",
    "C178_reference",
    "C178_mask",
    "C178_mask_norm",
    "C178_ends"
   ],
   "note": "Taken literally the statement is false of the code, which is proved: a limit beyond the end of the table is not an error: the filter is then normalised as if the limit was at the end of the table (with the last magnitude counted twice), whatever the limit; the table ends at a tenth of the characteristic luminosity at the largest redshift (C178_beyond_refuted). What does hold is proved without conditions in C178_table, C178_unit, C178_integral, C178_primitive, C178_fainter, C178_reference, C178_mask, C178_mask_norm, C178_ends."
  },
  {
   "property": "C179",
   "status": "partial",
   "theorems": [
    "C179_open",
    "C179_open_error",
    "C179_from_file",
    "C179_same_name",
    "C179_reopen",
    "C179_subsets",
    "C179_subset_own_columns_refuted",
    "C179_crop",
    "C179_randoms_refuted",
    "C179_extra_partial",
    "C179_extra_refuted",
    "C179_rescan_refuted"
   ],
   "note": "Taken literally the statement is false of the code, which is proved: a catalogue made with its own list of columns does not keep to it: every subset of it gains, as zeros, all the columns of its configuration (cluster.py:993 builds the subset without the list) (C179_subset_own_columns_refuted); the table that the run over random points leaves does not have the sixteen columns it asks for but forty-six: the thirty base columns of clusters it did not ask for come back, all zero, among them the limiting magnitude that the run did compute (C179_randoms_refuted); a file that has one of them, for example the output of an earlier scan or colour run, is refused (C179_extra_refuted); A second scan of what a scan has left (C179_rescan_refuted). What does hold is proved without conditions in C179_open, C179_open_error, C179_from_file, C179_same_name, C179_reopen, C179_subsets, C179_crop and under the condition in the statement of C179_extra_partial."
  },
  {
   "property": "C180",
   "status": "partial",
   "theorems": [
    "C180_rows",
    "C180_row",
    "C180_assign_error",
    "C180_caller_refuted"
   ],
   "note": "Taken literally the statement is false of the code, which is proved: a caller of apply_correction finds the array of values changed while the array of bins is not: with an extra scatter the two no longer are a normalised distribution (in place division, zlambda.py:727) (C180_caller_refuted). What does hold is proved without conditions in C180_rows, C180_row, C180_assign_error."
  },
  {
   "property": "C181",
   "status": "partial",
   "theorems": [
    "C181_share_partial",
    "C181_unmasked_refuted",
    "C181_negative_refuted",
    "C181_positive_partial",
    "C181_dropped_refuted",
    "C181_tiles_partial",
    "C181_tiles_refuted"
   ],
   "note": "Taken literally the statement is false of the code, which is proved: a member outside the mask (percolation_memradius beyond the mask radius, or fainter than percolation_lmask) is never used up: any number of clusters can each have the whole galaxy (C181_unmasked_refuted); with cuts on the radius of members, a candidate for the centre is recorded also when the galaxy is used up more than once: its free probability in the member table, and with it its share, is negative (C181_negative_refuted); a cluster that is dropped from the catalog in the end keeps its claims: the only cluster of the catalog is given a tenth of its member, the rest of which no cluster has (C181_dropped_refuted); each tile is percolated by itself and its borders overlap those of others, so that a galaxy near a border can be a whole member of a cluster in each of any number of tiles; merging keeps all of them (C181_tiles_refuted). What does hold is proved under the condition in the statement of C181_share_partial, C181_positive_partial, C181_tiles_partial."
  },
  {
   "property": "C182",
   "status": "partial",
   "theorems": [
    "C182_part_partial",
    "C182_later",
    "C182_chain_refuted"
   ],
   "note": "Taken literally the statement is false of the code, which is proved: a border that contains all clusters which share galaxies with those of the tile is not enough: in a chain of clusters, each of which shares a galaxy with the next only, leaving out the first changes the richness of the last, however long the chain (C182_chain_refuted). What does hold is proved without conditions in C182_later and under the condition in the statement of C182_part_partial."
  },
  {
   "property": "C183",
   "status": "partial",
   "theorems": [
    "C183_zspec_partial",
    "C183_found",
    "C183_none",
    "C183_best_refuted",
    "C183_directions_refuted",
    "C183_marks_refuted",
    "C183_truth"
   ],
   "note": "Taken literally the statement is false of the code, which is proved: of several precise spectra of one galaxy the last of the file counts, however much worse it is: it may be further from the galaxy and have the larger error (C183_best_refuted); the sample that calibrates and the catalogue selected with its result match in opposite directions. A galaxy with a precise spectrum within reach, to which another galaxy is closer, has no redshift (0) in the calibration; the selection gives it that spectrum's redshift (C183_directions_refuted); a galaxy with no spectrum at all has redshift 0 in the calibration sample and -1 in a selected catalogue (C183_marks_refuted). What does hold is proved without conditions in C183_found, C183_none, C183_truth and under the condition in the statement of C183_zspec_partial."
  },
  {
   "property": "C184",
   "status": "partial",
   "theorems": [
    "C184_randoms",
    "C184_clusters_partial",
    "C184_scan_partial",
    "C184_single_refuted",
    "C184_positions_refuted",
    "C184_refused"
   ],
   "note": "Taken literally the statement is false of the code, which is proved: the only cluster of a file loses its identifier: it is number 1 afterwards (C184_single_refuted); a file without positions (or with columns of other names, for example RA_J2000) is not refused: every one of its clusters is put at right ascension 0 and declination 0 (C184_positions_refuted). What does hold is proved without conditions in C184_randoms, C184_refused and under the condition in the statement of C184_clusters_partial, C184_scan_partial."
  },
  {
   "property": "C185",
   "status": "partial",
   "theorems": [
    "C185_readable",
    "C185_splines",
    "C185_unreadable",
    "C185_start",
    "C185_maxnode_refuted",
    "C185_short",
    "C185_single_refuted"
   ],
   "note": "Taken literally the statement is false of the code, which is proved: the largest node set for a color is not checked. One at or below the lower end of the range (and not negative) stops the calibration when the row is made, with an error about an empty array (C185_maxnode_refuted); in a range not longer than half a node size plus 0.01 (and than a node size) the reader's spline has a single node, which a spline cannot be drawn through: its two ends coincide (C185_single_refuted). What does hold is proved without conditions in C185_readable, C185_splines, C185_unreadable, C185_start, C185_short."
  },
  {
   "property": "C186",
   "status": "proved",
   "theorems": [
    "C186_odds",
    "C186_estimate",
    "C186_given",
    "C186_no_volume",
    "C186_without_volume"
   ],
   "note": ""
  },
  {
   "property": "C187",
   "status": "partial",
   "theorems": [
    "C187_columns",
    "C187_order",
    "C187_own_color",
    "C187_trimmed",
    "C187_few_refuted",
    "C187_errors",
    "C187_truncated",
    "C187_positive",
    "C187_stages",
    "C187_medians",
    "C187_red_color"
   ],
   "note": "Taken literally the statement is false of the code, which is proved: with fewer than three galaxies the first fit is given no galaxy at all, without a word (C187_few_refuted). What does hold is proved without conditions in C187_columns, C187_order, C187_own_color, C187_trimmed, C187_errors, C187_truncated, C187_positive, C187_stages, C187_medians, C187_red_color."
  },
  {
   "property": "C188",
   "status": "proved",
   "theorems": [
    "C188_profile",
    "C188_direction",
    "C188_turn",
    "C188_uniform",
    "C188_uniform_direction",
    "C188_uniform_turn",
    "C188_weight"
   ],
   "note": ""
  },
  {
   "property": "C189",
   "status": "partial",
   "theorems": [
    "C189_passes",
    "C189_again",
    "C189_ends",
    "C189_radius",
    "C189_lum_refuted",
    "C189_matching",
    "C189_kept",
    "C189_failed_refuted",
    "C189_names",
    "C189_output",
    "C189_stale_refuted",
    "C189_fresh_partial",
    "C189_filename_partial",
    "C189_filename_refuted"
   ],
   "note": "Taken literally the statement is false of the code, which is proved: the members of no run are limited in luminosity by percolation_memlum: run_percolation.py:206 turns the limit off and nothing turns it on, so the branches at cluster_runner.py:529-530 and 547-548 are never taken (C189_lum_refuted); clusters that failed (richness -1) stay in the catalogue of a run on input clusters and of the random points, and in that of every other run whose least richness is -1 or less (C189_failed_refuted); [output] does not clobber unless told to, and then a second catalogue goes behind the first: who reads the file still gets the first (C189_stale_refuted); by default the version is part of the name, so [filename], asked before the output (to see if there is something to do), never names the file the output goes to (C189_filename_refuted). What does hold is proved without conditions in C189_passes, C189_again, C189_ends, C189_radius, C189_matching, C189_kept, C189_names, C189_output and under the condition in the statement of C189_fresh_partial, C189_filename_partial."
  },
  {
   "property": "C190",
   "status": "partial",
   "theorems": [
    "C190_median",
    "C190_members_partial",
    "C190_shifted_refuted",
    "C190_foreign_refuted",
    "C190_members_error",
    "C190_outliers",
    "C190_no_spec_refuted",
    "C190_bins",
    "C190_bias",
    "C190_offset",
    "C190_error",
    "C190_factor_refuted",
    "C190_few_refuted",
    "C190_panel",
    "C190_coarse_partial",
    "C190_coarse_refuted"
   ],
   "note": "Taken literally the statement is false of the code, which is proved: the bins of the histogram start at the first cluster with a member, but are written from the first cluster on: with k clusters without a member at the front, every cluster is shown with the redshift of the cluster k places further down, and the last k with 0 (C190_shifted_refuted); rows of the match are taken for rows of the member table (line 115), so one member of no cluster of the catalogue (its cluster was cut for its richness) gives the clusters behind it the redshifts of other members (C190_foreign_refuted); a catalogue without a single spectroscopic redshift makes no plot but a ValueError, in the consolidation after the catalogues are written (C190_no_spec_refuted); the factor from the median deviation to a standard deviation is mistyped, 1.4862 for 1.4826: the scatter is too large by 0.24 per cent whenever there is any (C190_factor_refuted); a bin of fewer than three rows, or none, is drawn as one without bias, scatter and error (C190_few_refuted); the object with the largest redshift is in none of the coarse bins (C190_coarse_refuted). What does hold is proved without conditions in C190_median, C190_members_error, C190_outliers, C190_bins, C190_bias, C190_offset, C190_error, C190_panel and under the condition in the statement of C190_members_partial, C190_coarse_partial."
  },
  {
   "property": "C191",
   "status": "partial",
   "theorems": [
    "C191_points",
    "C191_counts",
    "C191_bin",
    "C191_top_refuted",
    "C191_volume",
    "C191_no_area",
    "C191_total",
    "C191_plot",
    "C191_plots",
    "C191_draw_range",
    "C191_low_refuted",
    "C191_no_density"
   ],
   "note": "Taken literally the statement is false of the code, which is proved: objects in the last 0.0001 of the range are counted in no bin, while the volume of the last bin has it (C191_top_refuted); one draw in a hundred gives the lower end of the density's range, however small the density is there (C191_low_refuted). What does hold is proved without conditions in C191_points, C191_counts, C191_bin, C191_volume, C191_no_area, C191_total, C191_plot, C191_plots, C191_draw_range, C191_no_density."
  },
  {
   "property": "C192",
   "status": "partial",
   "theorems": [
    "C192_arc",
    "C192_choice",
    "C192_turned",
    "C192_empty_refuted"
   ],
   "note": "Taken literally the statement is false of the code, which is proved: an empty catalogue has no range and is an error (C192_empty_refuted). What does hold is proved without conditions in C192_arc, C192_choice, C192_turned."
  },
  {
   "property": "C193",
   "status": "partial",
   "theorems": [
    "C193_sizes",
    "C193_value",
    "C193_without",
    "C193_history",
    "C193_others",
    "C193_left_refuted",
    "C193_two",
    "C193_three_refuted"
   ],
   "note": "Taken literally the statement is false of the code, which is proved: the matrices of the caller are left with the correlations of the last trial, which are those of the answer only if the optimiser tried the answer last (with differences for the gradient, it does not) (C193_left_refuted); with three colors the limits of 0.9 on each correlation do not make a covariance: after 0.9 with the second color for both, -0.9 between the first and the third is beyond the wall, so whether a correlation can be found depends on the order of the fits (C193_three_refuted). What does hold is proved without conditions in C193_sizes, C193_value, C193_without, C193_history, C193_others, C193_two."
  },
  {
   "property": "C194",
   "status": "partial",
   "theorems": [
    "C194_filename",
    "C194_saved",
    "C194_unsaved",
    "C194_catalogue",
    "C194_distinct",
    "C194_history_partial",
    "C194_renamed_refuted",
    "C194_before_refuted",
    "C194_before_partial",
    "C194_redmagic_refuted",
    "C194_consolidation",
    "C194_base_partial",
    "C194_base_refuted",
    "C194_outbase_refuted"
   ],
   "note": "Taken literally the statement is false of the code, which is proved: the plots of richnesses and positions take the name of the plot before: after a plot of values with a name of its own, the plot of a catalogue is saved over it (C194_renamed_refuted); for these two, filename is an AttributeError before the first plot; for the others it is where the plot will be, without a version (C194_before_refuted); names of redMaGiC plots run together: a plot of the calibration of a sample has the name of the plot of a sample that is called by both (C194_redmagic_refuted); with \"_catalog\" in the name of the run, the plots of all cuts have one base, and those of the last cut are what is left (C194_base_refuted); with plots, the configuration is left with the base of the last catalogue as the name of the run (C194_outbase_refuted). What does hold is proved without conditions in C194_filename, C194_saved, C194_unsaved, C194_catalogue, C194_distinct, C194_consolidation and under the condition in the statement of C194_history_partial, C194_before_partial, C194_base_partial."
  },
  {
   "property": "C195",
   "status": "partial",
   "theorems": [
    "C195_counts",
    "C195_bin",
    "C195_rich_refuted"
   ],
   "note": "Taken literally the statement is false of the code, which is proved: the last edge is below 200 (199 for bins of 1), and clusters that are richer are in no bin (C195_rich_refuted). What does hold is proved without conditions in C195_counts, C195_bin."
  },
  {
   "property": "C196",
   "status": "partial",
   "theorems": [
    "C196_reference",
    "C196_selected",
    "C196_exact_partial",
    "C196_once_partial",
    "C196_border",
    "C196_result",
    "C196_succeeds",
    "C196_empty_refuted",
    "C196_coarse_refuted"
   ],
   "note": "Taken literally the statement is false of the code, which is proved: an empty part of a map is an error and not an empty list (C196_empty_refuted); with a map that is coarser than the pixel, the cut at a pixel without the center of a map pixel is an error, although the pixel is inside one (C196_coarse_refuted). What does hold is proved without conditions in C196_reference, C196_selected, C196_border, C196_result, C196_succeeds and under the condition in the statement of C196_exact_partial, C196_once_partial."
  },
  {
   "property": "C197",
   "status": "proved",
   "theorems": [
    "C197_sizes",
    "C197_refused"
   ],
   "note": ""
  },
  {
   "property": "C198",
   "status": "partial",
   "theorems": [
    "C198_ends",
    "C198_nothing",
    "C198_raises",
    "C198_held_refuted",
    "C198_stops",
    "C198_stale_refuted",
    "C198_unset_refuted",
    "C198_breaks"
   ],
   "note": "Taken literally the statement is false of the code, which is proved: A run that ends is the only one that releases what was read. Finding: what a run without galaxies, or one that is broken off, has read is held until a run ends (C198_held_refuted); a run that stops before its catalogue is read leaves the catalogue and members of the run before, and output then writes them again; one that finds nothing leaves the members of the run before, without a catalogue (C198_stale_refuted); if every run so far has stopped before its catalogue was read, or there was none, output is an AttributeError (C198_unset_refuted). What does hold is proved without conditions in C198_ends, C198_nothing, C198_raises, C198_stops, C198_breaks."
  },
  {
   "property": "C199",
   "status": "proved",
   "theorems": [
    "C199_usage",
    "C199_no_status"
   ],
   "note": ""
  }
 ]
}