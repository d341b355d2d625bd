{
 "claims": [
  {
   "property": "C01",
   "status": "proved",
   "theorems": [
    "C01_ymd_anchor",
    "C01_ymd_successor",
    "C01_from_ymd_of_ymd",
    "C01_ymd_of_from_ymd"
   ],
   "note": "Proved in full for the model; assumptions are in the statements."
  },
  {
   "property": "C02",
   "status": "proved",
   "theorems": [
    "C02_order",
    "C02_no_overflow"
   ],
   "note": "Proved in full for the model; assumptions are in the statements."
  },
  {
   "property": "C03",
   "status": "proved",
   "theorems": [
    "C03_panics_iff_invalid",
    "C03_weekday_cycle",
    "C03_weekday_anchor"
   ],
   "note": "Proved in full for the model; assumptions are in the statements."
  },
  {
   "property": "C04",
   "status": "proved",
   "theorems": [
    "C04_text_round_trip"
   ],
   "note": "Proved in full for the model; assumptions are in the statements."
  },
  {
   "property": "C05",
   "status": "proved",
   "theorems": [
    "C05_parse_valid",
    "C05_index_panic_iff",
    "C05_fields_normalised",
    "C05_never_panics_refuted",
    "C05_rejects_impossible_refuted"
   ],
   "note": "The statement says where the code does not do what its users expect; the witnesses are C05_never_panics_refuted, C05_rejects_impossible_refuted. The other theorems prove what does hold, for all inputs."
  },
  {
   "property": "C06",
   "status": "proved",
   "theorems": [
    "C06_count_is_weight_sum",
    "C06_count_total",
    "C06_weekend_holiday_refuted"
   ],
   "note": "The statement says where the code does not do what its users expect; the witnesses are C06_weekend_holiday_refuted. The other theorems prove what does hold, for all inputs."
  },
  {
   "property": "C07",
   "status": "proved",
   "theorems": [
    "C07_step_sound",
    "C07_step_complete",
    "C07_step_business",
    "C07_is_holiday"
   ],
   "note": "Proved in full for the model; assumptions are in the statements."
  },
  {
   "property": "C08",
   "status": "proved",
   "theorems": [
    "C08_steps_add",
    "C08_step_inverse",
    "C08_step_monotone",
    "C08_count_of_step"
   ],
   "note": "Proved in full for the model; assumptions are in the statements."
  },
  {
   "property": "C09",
   "status": "proved",
   "theorems": [
    "C09_vol_count",
    "C09_vol_count_nested",
    "C09_vol_count_total",
    "C09_additive",
    "C09_nonnegative",
    "C09_monotone_end",
    "C09_antitone_start",
    "C09_day_weight",
    "C09_day_weight_nested_refuted"
   ],
   "note": "The statement says where the code does not do what its users expect; the witnesses are C09_day_weight_nested_refuted. The other theorems prove what does hold, for all inputs."
  },
  {
   "property": "C10",
   "status": "proved",
   "theorems": [
    "C10_nearest",
    "C10_total",
    "C10_wrong_slip_panics",
    "C10_no_weight",
    "C10_zero_step_stays",
    "C10_lands_on_business_day_refuted",
    "C10_plain_rounds",
    "C10_truncates_refuted"
   ],
   "note": "The statement says where the code does not do what its users expect; the witnesses are C10_lands_on_business_day_refuted, C10_truncates_refuted. The other theorems prove what does hold, for all inputs."
  },
  {
   "property": "C11",
   "status": "proved",
   "theorems": [
    "C11_null_rule",
    "C11_business_days",
    "C11_next_idempotent",
    "C11_modified_following",
    "C11_modified_following_idempotent",
    "C11_modified_following_stays",
    "C11_modified_following_leaves_refuted"
   ],
   "note": "The statement says where the code does not do what its users expect; the witnesses are C11_modified_following_leaves_refuted. The other theorems prove what does hold, for all inputs."
  },
  {
   "property": "C12",
   "status": "proved",
   "theorems": [
    "C12_linear_at_points",
    "C12_linear_between",
    "C12_linear_affine",
    "C12_linear_affine_natural",
    "C12_linear_slopes"
   ],
   "note": "Proved in full for the model; assumptions are in the statements."
  },
  {
   "property": "C13",
   "status": "proved",
   "theorems": [
    "C13_left_policy",
    "C13_left_natural",
    "C13_right_policy",
    "C13_right_natural",
    "C13_single_point",
    "C13_right_policy_refuted",
    "C13_spline_policy"
   ],
   "note": "The statement says where the code does not do what its users expect; the witnesses are C13_right_policy_refuted. The other theorems prove what does hold, for all inputs."
  },
  {
   "property": "C14",
   "status": "proved",
   "theorems": [
    "C14_validation",
    "C14_linear_new",
    "C14_nan_refused",
    "C14_nan_refused_refuted",
    "C14_spline_single_point_refuted",
    "C14_deserialized_refuted"
   ],
   "note": "The statement says where the code does not do what its users expect; the witnesses are C14_nan_refused_refuted, C14_spline_single_point_refuted, C14_deserialized_refuted. The other theorems prove what does hold, for all inputs."
  },
  {
   "property": "C15",
   "status": "proved",
   "theorems": [
    "C15_natural_spline",
    "C15_natural_spline_unique",
    "C15_affine",
    "C15_slope_is_derivative",
    "C15_curvature_is_derivative"
   ],
   "note": "Proved in full for the model; assumptions are in the statements."
  },
  {
   "property": "C16",
   "status": "proved",
   "theorems": [
    "C16_clamped_right",
    "C16_clamped_left_curvature",
    "C16_clamped_left_refuted"
   ],
   "note": "The statement says where the code does not do what its users expect; the witnesses are C16_clamped_left_refuted. The other theorems prove what does hold, for all inputs."
  },
  {
   "property": "C17",
   "status": "proved",
   "theorems": [
    "C17_encloses",
    "C17_root",
    "C17_unbracketed",
    "C17_evaluations",
    "C17_found"
   ],
   "note": "Proved in full for the model; assumptions are in the statements."
  },
  {
   "property": "C18",
   "status": "proved",
   "theorems": [
    "C18_stays_in_bracket_refuted",
    "C18_trial_between",
    "C18_moves"
   ],
   "note": "The statement says where the code does not do what its users expect; the witnesses are C18_stays_in_bracket_refuted. The other theorems prove what does hold, for all inputs."
  },
  {
   "property": "C19",
   "status": "proved",
   "theorems": [
    "C19_parity",
    "C19_scaling",
    "C19_discounting",
    "C19_upper_bounds",
    "C19_above_intrinsic",
    "C19_below_underlying",
    "C19_increasing_in_volatility",
    "C19_put_increasing_in_volatility",
    "C19_decreasing_in_strike",
    "C19_increasing_in_forward",
    "C19_convex_in_strike",
    "C19_at_the_money_refuted"
   ],
   "note": "The statement says where the code does not do what its users expect; the witnesses are C19_at_the_money_refuted. The other theorems prove what does hold, for all inputs."
  },
  {
   "property": "C20",
   "status": "proved",
   "theorems": [
    "C20_same",
    "C20_compose",
    "C20_inverse",
    "C20_positive",
    "C20_defined"
   ],
   "note": "Proved in full for the model; assumptions are in the statements."
  },
  {
   "property": "C21",
   "status": "proved",
   "theorems": [
    "C21_reciprocal",
    "C21_above_one",
    "C21_documented_refuted",
    "C21_zero_coupon_below_one"
   ],
   "note": "The statement says where the code does not do what its users expect; the witnesses are C21_documented_refuted. The other theorems prove what does hold, for all inputs."
  },
  {
   "property": "C22",
   "status": "proved",
   "theorems": [
    "C22_continuous",
    "C22_continuous_zero",
    "C22_continuous_add",
    "C22_annualised",
    "C22_annualised_zero",
    "C22_zero_curve",
    "C22_relative",
    "C22_relative_refuted"
   ],
   "note": "The statement says where the code does not do what its users expect; the witnesses are C22_relative_refuted. The other theorems prove what does hold, for all inputs."
  },
  {
   "property": "C23",
   "status": "proved",
   "theorems": [
    "C23_lookup",
    "C23_optional",
    "C23_constructed_iff",
    "C23_no_panic",
    "C23_failed_insert_refuted",
    "C23_deserialised_refuted"
   ],
   "note": "The statement says where the code does not do what its users expect; the witnesses are C23_failed_insert_refuted, C23_deserialised_refuted. The other theorems prove what does hold, for all inputs."
  },
  {
   "property": "C24",
   "status": "proved",
   "theorems": [
    "C24_succeeds",
    "C24_amounts_exist",
    "C24_between",
    "C24_from_base",
    "C24_before",
    "C24_past_is_error",
    "C24_out_of_order",
    "C24_reaches_cash",
    "C24_reach"
   ],
   "note": "Proved in full for the model; assumptions are in the statements."
  },
  {
   "property": "C25",
   "status": "proved",
   "theorems": [
    "C25_base_date_counted",
    "C25_base_date_not_counted",
    "C25_base_date_refuted",
    "C25_cash_after_refuted"
   ],
   "note": "The statement says where the code does not do what its users expect; the witnesses are C25_base_date_refuted, C25_cash_after_refuted. The other theorems prove what does hold, for all inputs."
  },
  {
   "property": "C26",
   "status": "proved",
   "theorems": [
    "C26_dividends",
    "C26_sums",
    "C26_yield",
    "C26_overlap",
    "C26_bumpable_refuted"
   ],
   "note": "The statement says where the code does not do what its users expect; the witnesses are C26_bumpable_refuted. The other theorems prove what does hold, for all inputs."
  },
  {
   "property": "C27",
   "status": "proved",
   "theorems": [
    "C27_succeeds",
    "C27_forward",
    "C27_starts_at_spot",
    "C27_change",
    "C27_proportional",
    "C27_past_is_error",
    "C27_yield_refuted"
   ],
   "note": "The statement says where the code does not do what its users expect; the witnesses are C27_yield_refuted. The other theorems prove what does hold, for all inputs."
  },
  {
   "property": "C28",
   "status": "proved",
   "theorems": [
    "C28_each_strike",
    "C28_variance",
    "C28_variances",
    "C28_evolved_nonnegative",
    "C28_flat",
    "C28_flat_forward",
    "C28_flat_forward_total",
    "C28_parallel",
    "C28_parallel_adds",
    "C28_time_scaled",
    "C28_time_scaled_floor",
    "C28_sticky_delta",
    "C28_constant_expiry",
    "C28_constant_expiry_flat",
    "C28_rolling_expiry",
    "C28_evolve_same",
    "C28_evolve",
    "C28_follow",
    "C28_stays"
   ],
   "note": "Proved in full for the model; assumptions are in the statements."
  },
  {
   "property": "C29",
   "status": "proved",
   "theorems": [
    "C29_started",
    "C29_each_strike",
    "C29_without_forward",
    "C29_with_forward",
    "C29_smile_date",
    "C29_no_smile_zero",
    "C29_driftless",
    "C29_accumulated_refuted",
    "C29_flat_smiles"
   ],
   "note": "The statement says where the code does not do what its users expect; the witnesses are C29_accumulated_refuted. The other theorems prove what does hold, for all inputs."
  },
  {
   "property": "C30",
   "status": "proved",
   "theorems": [
    "C30_construction",
    "C30_pillar",
    "C30_between",
    "C30_between_atm",
    "C30_outside",
    "C30_no_calendar_arbitrage",
    "C30_strikes_inverse"
   ],
   "note": "Proved in full for the model; assumptions are in the statements."
  },
  {
   "property": "C31",
   "status": "proved",
   "theorems": [
    "C31_spot_opposite",
    "C31_vega_linear",
    "C31_vega_samples",
    "C31_opposite_vol",
    "C31_symmetric_vol_refuted",
    "C31_replace"
   ],
   "note": "The statement says where the code does not do what its users expect; the witnesses are C31_symmetric_vol_refuted. The other theorems prove what does hold, for all inputs."
  },
  {
   "property": "C32",
   "status": "proved",
   "theorems": [
    "C32_payoff",
    "C32_cash",
    "C32_physical",
    "C32_cash_exact",
    "C32_physical_exact",
    "C32_payment",
    "C32_unknown",
    "C32_price_at_expiry",
    "C32_idempotent"
   ],
   "note": "Proved in full for the model; assumptions are in the statements."
  },
  {
   "property": "C33",
   "status": "proved",
   "theorems": [
    "C33_becomes_spot_starting",
    "C33_unknown",
    "C33_same_price"
   ],
   "note": "Proved in full for the model; assumptions are in the statements."
  },
  {
   "property": "C34",
   "status": "proved",
   "theorems": [
    "C34_pricer",
    "C34_monte_carlo",
    "C34_replaces",
    "C34_nothing_changed",
    "C34_first_error",
    "C34_basket",
    "C34_worth",
    "C34_idempotent"
   ],
   "note": "Proved in full for the model; assumptions are in the statements."
  },
  {
   "property": "C35",
   "status": "proved",
   "theorems": [
    "C35_basket_priced",
    "C35_basket_sum",
    "C35_basket_exact",
    "C35_basket_error",
    "C35_concatenation",
    "C35_nested",
    "C35_nested_priced",
    "C35_leaves_exist",
    "C35_length",
    "C35_pricer",
    "C35_pricer_concat"
   ],
   "note": "Proved in full for the model; assumptions are in the statements."
  },
  {
   "property": "C36",
   "status": "proved",
   "theorems": [
    "C36_zero_coupon",
    "C36_zero_coupon_exact",
    "C36_zero_coupon_gone",
    "C36_zero_coupon_batch",
    "C36_currency",
    "C36_expired",
    "C36_black",
    "C36_black_total",
    "C36_black_forward_start",
    "C36_parity",
    "C36_parity_forward_start",
    "C36_parity_refuted"
   ],
   "note": "The statement says where the code does not do what its users expect; the witnesses are C36_parity_refuted. The other theorems prove what does hold, for all inputs."
  },
  {
   "property": "C37",
   "status": "proved",
   "theorems": [
    "C37_simple",
    "C37_option_with_underlying_curve",
    "C37_option_refuted",
    "C37_own_credit_unused",
    "C37_own_credit_unused_forward",
    "C37_basket_option_refuted",
    "C37_equity_forward_refuted"
   ],
   "note": "The statement says where the code does not do what its users expect; the witnesses are C37_option_refuted, C37_basket_option_refuted, C37_equity_forward_refuted. The other theorems prove what does hold, for all inputs."
  },
  {
   "property": "C38",
   "status": "proved",
   "theorems": [
    "C38_high_water_marks",
    "C38_once",
    "C38_spots",
    "C38_fixings",
    "C38_forwards_of_credit",
    "C38_instruments",
    "C38_total",
    "C38_unique"
   ],
   "note": "Proved in full for the model; assumptions are in the statements."
  },
  {
   "property": "C39",
   "status": "proved",
   "theorems": [
    "C39_changes_target",
    "C39_unknown",
    "C39_spot_date",
    "C39_wrong_area",
    "C39_saving_irrelevant",
    "C39_through_cache"
   ],
   "note": "Proved in full for the model; assumptions are in the statements."
  },
  {
   "property": "C40",
   "status": "proved",
   "theorems": [
    "C40_cleared",
    "C40_restore",
    "C40_last_saved",
    "C40_unsaved",
    "C40_twice_refuted"
   ],
   "note": "The statement says where the code does not do what its users expect; the witnesses are C40_twice_refuted. The other theorems prove what does hold, for all inputs."
  },
  {
   "property": "C41",
   "status": "proved",
   "theorems": [
    "C41_answers",
    "C41_fresh",
    "C41_pricer",
    "C41_same_id_refuted"
   ],
   "note": "The statement says where the code does not do what its users expect; the witnesses are C41_same_id_refuted. The other theorems prove what does hold, for all inputs."
  },
  {
   "property": "C42",
   "status": "proved",
   "theorems": [
    "C42_cleared",
    "C42_monte_carlo_cleared",
    "C42_monte_carlo",
    "C42_monte_carlo_refuted",
    "C42_restore",
    "C42_shared_underlying_refuted",
    "C42_two_feeds_refuted",
    "C42_spot_date"
   ],
   "note": "The statement says where the code does not do what its users expect; the witnesses are C42_monte_carlo_refuted, C42_shared_underlying_refuted, C42_two_feeds_refuted. The other theorems prove what does hold, for all inputs."
  },
  {
   "property": "C43",
   "status": "proved",
   "theorems": [
    "C43_delta_fails",
    "C43_not_cached",
    "C43_wrong_area"
   ],
   "note": "Proved in full for the model; assumptions are in the statements."
  },
  {
   "property": "C44",
   "status": "proved",
   "theorems": [
    "C44_monte_carlo",
    "C44_self_pricer",
    "C44_leaves_pricer",
    "C44_separately",
    "C44_any_order",
    "C44_time_bumped",
    "C44_failure_refuted"
   ],
   "note": "The statement says where the code does not do what its users expect; the witnesses are C44_failure_refuted. The other theorems prove what does hold, for all inputs."
  },
  {
   "property": "C45",
   "status": "proved",
   "theorems": [
    "C45_samples",
    "C45_samples_exact",
    "C45_quadratic",
    "C45_theta"
   ],
   "note": "Proved in full for the model; assumptions are in the statements."
  },
  {
   "property": "C46",
   "status": "proved",
   "theorems": [
    "C46_calculated",
    "C46_exact",
    "C46_symmetric",
    "C46_size_ignored",
    "C46_symmetric_refuted",
    "C46_itself",
    "C46_negative_refuted"
   ],
   "note": "The statement says where the code does not do what its users expect; the witnesses are C46_symmetric_refuted, C46_negative_refuted. The other theorems prove what does hold, for all inputs."
  },
  {
   "property": "C47",
   "status": "proved",
   "theorems": [
    "C47_monte_carlo",
    "C47_fixes_window",
    "C47_nothing",
    "C47_date",
    "C47_pricer",
    "C47_duplicates",
    "C47_two_options_refuted"
   ],
   "note": "The statement says where the code does not do what its users expect; the witnesses are C47_two_options_refuted. The other theorems prove what does hold, for all inputs."
  },
  {
   "property": "C48",
   "status": "proved",
   "theorems": [
    "C48_mean",
    "C48_nonneg",
    "C48_parity",
    "C48_noiseless",
    "C48_flows",
    "C48_flows_possible",
    "C48_discount_refuted"
   ],
   "note": "The statement says where the code does not do what its users expect; the witnesses are C48_discount_refuted. The other theorems prove what does hold, for all inputs."
  },
  {
   "property": "C49",
   "status": "proved",
   "theorems": [
    "C49_paths",
    "C49_no_noise",
    "C49_scaling",
    "C49_balanced",
    "C49_fresh",
    "C49_positive_refuted",
    "C49_steps_refuted"
   ],
   "note": "The statement says where the code does not do what its users expect; the witnesses are C49_positive_refuted, C49_steps_refuted. The other theorems prove what does hold, for all inputs."
  },
  {
   "property": "C50",
   "status": "proved",
   "theorems": [
    "C50_one_underlying",
    "C50_not_none",
    "C50_two_panic",
    "C50_portfolio_refuted",
    "C50_fixed",
    "C50_expiry",
    "C50_expiry_refuted"
   ],
   "note": "The statement says where the code does not do what its users expect; the witnesses are C50_portfolio_refuted, C50_expiry_refuted. The other theorems prove what does hold, for all inputs."
  },
  {
   "property": "C51",
   "status": "proved",
   "theorems": [
    "C51_self_pricer",
    "C51_monte_carlo",
    "C51_encloses",
    "C51_found",
    "C51_near",
    "C51_ambiguous",
    "C51_after",
    "C51_call",
    "C51_left_refuted",
    "C51_error_refuted"
   ],
   "note": "The statement says where the code does not do what its users expect; the witnesses are C51_left_refuted, C51_error_refuted. The other theorems prove what does hold, for all inputs."
  },
  {
   "property": "C52",
   "status": "proved",
   "theorems": [
    "C52_pricer_factories",
    "C52_written",
    "C52_round_trip",
    "C52_round_trip_refuted",
    "C52_graph",
    "C52_instruments_once",
    "C52_currencies_once",
    "C52_by_reference",
    "C52_market_data",
    "C52_no_cash_dividends_refuted",
    "C52_fixings",
    "C52_generators",
    "C52_reports",
    "C52_nonfinite_refuted"
   ],
   "note": "The statement says where the code does not do what its users expect; the witnesses are C52_round_trip_refuted, C52_no_cash_dividends_refuted, C52_nonfinite_refuted. The other theorems prove what does hold, for all inputs."
  },
  {
   "property": "C53",
   "status": "proved",
   "theorems": [
    "C53_stateless",
    "C53_instrument_only",
    "C53_restored",
    "C53_instrument",
    "C53_panic",
    "C53_restored_refuted",
    "C53_reference"
   ],
   "note": "The statement says where the code does not do what its users expect; the witnesses are C53_restored_refuted. The other theorems prove what does hold, for all inputs."
  },
  {
   "property": "C54",
   "status": "proved",
   "theorems": [
    "C54_safe",
    "C54_owned",
    "C54_all_freed",
    "C54_kept",
    "C54_first_wrong",
    "C54_any_wrong",
    "C54_calculate",
    "C54_instrument",
    "C54_compare",
    "C54_read",
    "C54_error_string",
    "C54_reports_string",
    "C54_nul",
    "C54_clone",
    "C54_is_error",
    "C54_misuse",
    "C54_twice_refuted"
   ],
   "note": "The statement says where the code does not do what its users expect; the witnesses are C54_twice_refuted. The other theorems prove what does hold, for all inputs."
  },
  {
   "property": "C55",
   "status": "proved",
   "theorems": [
    "C55_distinct",
    "C55_closed",
    "C55_unknown",
    "C55_unknown_error",
    "C55_flat_smiles_refuted",
    "C55_sticky_delta_refuted",
    "C55_written_again_refuted"
   ],
   "note": "The statement says where the code does not do what its users expect; the witnesses are C55_flat_smiles_refuted, C55_sticky_delta_refuted, C55_written_again_refuted. The other theorems prove what does hold, for all inputs."
  },
  {
   "property": "C56",
   "status": "proved",
   "theorems": [
    "C56_session",
    "C56_instrument",
    "C56_currency",
    "C56_fixings",
    "C56_generator",
    "C56_reports",
    "C56_pricer_factory",
    "C56_market_data",
    "C56_instruments_exactly",
    "C56_currencies_exactly",
    "C56_fixings_exactly",
    "C56_generators_exactly",
    "C56_reports_exactly",
    "C56_pricer_factories_exactly",
    "C56_market_data_exactly",
    "C56_points_refuted",
    "C56_holidays_refuted",
    "C56_times_refuted",
    "C56_last_cash_refuted",
    "C56_twice_refuted",
    "C56_one_point_refuted",
    "C56_last_day_refuted",
    "C56_nan_forward_refuted"
   ],
   "note": "The statement says where the code does not do what its users expect; the witnesses are C56_points_refuted, C56_holidays_refuted, C56_times_refuted, C56_last_cash_refuted, C56_twice_refuted, C56_one_point_refuted, C56_last_day_refuted, C56_nan_forward_refuted. The other theorems prove what does hold, for all inputs."
  },
  {
   "property": "C57",
   "status": "proved",
   "theorems": [
    "C57_asked_for",
    "C57_each",
    "C57_any_order",
    "C57_results",
    "C57_client"
   ],
   "note": "Proved in full for the model; assumptions are in the statements."
  },
  {
   "property": "C58",
   "status": "proved",
   "theorems": [
    "C58_at_points",
    "C58_left_policy",
    "C58_right_policy",
    "C58_between",
    "C58_nan_panics",
    "C58_dates_accepted",
    "C58_at_dates",
    "C58_outside_dates",
    "C58_between_dates",
    "C58_spline_doubles",
    "C58_spline_dates",
    "C58_segment_ends",
    "C58_segment_ends_refuted",
    "C58_flat_curve_refuted",
    "C58_monotone_refuted"
   ],
   "note": "The statement says where the code does not do what its users expect; the witnesses are C58_segment_ends_refuted, C58_flat_curve_refuted, C58_monotone_refuted. The other theorems prove what does hold, for all inputs."
  },
  {
   "property": "C59",
   "status": "proved",
   "theorems": [
    "C59_encloses",
    "C59_nan_refuted"
   ],
   "note": "The statement says where the code does not do what its users expect; the witnesses are C59_nan_refuted. The other theorems prove what does hold, for all inputs."
  },
  {
   "property": "C60",
   "status": "proved",
   "theorems": [
    "C60_count",
    "C60_whole_days",
    "C60_step",
    "C60_count_is_no_step_refuted",
    "C60_panic_is_rounding",
    "C60_forward_variance_refuted",
    "C60_rolling_refuted"
   ],
   "note": "The statement says where the code does not do what its users expect; the witnesses are C60_count_is_no_step_refuted, C60_forward_variance_refuted, C60_rolling_refuted. The other theorems prove what does hold, for all inputs."
  },
  {
   "property": "C61",
   "status": "proved",
   "theorems": [
    "C61_rate_times_time",
    "C61_discount_factor",
    "C61_same",
    "C61_positive",
    "C61_compose",
    "C61_inverse",
    "C61_exponential"
   ],
   "note": "Proved in full for the model; assumptions are in the statements."
  },
  {
   "property": "C62",
   "status": "proved",
   "theorems": [
    "C62_parity",
    "C62_intrinsic",
    "C62_at_the_money",
    "C62_expiry_day_refuted",
    "C62_fixing",
    "C62_assumptions_hold"
   ],
   "note": "The statement says where the code does not do what its users expect; the witnesses are C62_expiry_day_refuted. The other theorems prove what does hold, for all inputs."
  },
  {
   "property": "C63",
   "status": "proved",
   "theorems": [
    "C63_config",
    "C63_file",
    "C63_program",
    "C63_orphan",
    "C63_no_instrument_refuted",
    "C63_failure_refuted",
    "C63_copy",
    "C63_copy_empty_refuted",
    "C63_assign"
   ],
   "note": "The statement says where the code does not do what its users expect; the witnesses are C63_no_instrument_refuted, C63_failure_refuted, C63_copy_empty_refuted. The other theorems prove what does hold, for all inputs."
  },
  {
   "property": "C64",
   "status": "proved",
   "theorems": [
    "C64_normal",
    "C64_unbiased",
    "C64_paths",
    "C64_black",
    "C64_closed_form",
    "C64_forward_start",
    "C64_one_step",
    "C64_one_step_above",
    "C64_bias_refuted"
   ],
   "note": "The statement says where the code does not do what its users expect; the witnesses are C64_bias_refuted. The other theorems prove what does hold, for all inputs."
  },
  {
   "property": "C65",
   "status": "proved",
   "theorems": [
    "C65_displacement",
    "C65_bumped",
    "C65_evolved",
    "C65_strike_refuted",
    "C65_sticky_delta_refuted"
   ],
   "note": "The statement says where the code does not do what its users expect; the witnesses are C65_strike_refuted, C65_sticky_delta_refuted. The other theorems prove what does hold, for all inputs."
  },
  {
   "property": "C66",
   "status": "proved",
   "theorems": [
    "C66_flat",
    "C66_flat_forward",
    "C66_flat_forward_total",
    "C66_weekend_refuted",
    "C66_accepted_refuted",
    "C66_weekend_nan_refuted",
    "C66_evolved_nonnegative",
    "C66_bumped",
    "C66_nan_hidden_refuted"
   ],
   "note": "The statement says where the code does not do what its users expect; the witnesses are C66_weekend_refuted, C66_accepted_refuted, C66_weekend_nan_refuted, C66_nan_hidden_refuted. The other theorems prove what does hold, for all inputs."
  },
  {
   "property": "C67",
   "status": "proved",
   "theorems": [
    "C67_european",
    "C67_forward",
    "C67_share_option",
    "C67_assumptions_hold"
   ],
   "note": "Proved in full for the model; assumptions are in the statements."
  },
  {
   "property": "C68",
   "status": "proved",
   "theorems": [
    "C68_root",
    "C68_root_nan_refuted",
    "C68_root_to_zero_refuted",
    "C68_volatility",
    "C68_volatility_nan_refuted",
    "C68_at_the_money_refuted"
   ],
   "note": "The statement says where the code does not do what its users expect; the witnesses are C68_root_nan_refuted, C68_root_to_zero_refuted, C68_volatility_nan_refuted, C68_at_the_money_refuted. The other theorems prove what does hold, for all inputs."
  },
  {
   "property": "C69",
   "status": "proved",
   "theorems": [
    "C69_spot",
    "C69_forward",
    "C69_doubles",
    "C69_nan_refuted",
    "C69_order_refuted"
   ],
   "note": "The statement says where the code does not do what its users expect; the witnesses are C69_nan_refuted, C69_order_refuted. The other theorems prove what does hold, for all inputs."
  },
  {
   "property": "C70",
   "status": "proved",
   "theorems": [
    "C70_made",
    "C70_quoted",
    "C70_base_refuted",
    "C70_between",
    "C70_before",
    "C70_after",
    "C70_bump_requotes",
    "C70_bump_zero_refuted",
    "C70_annualised",
    "C70_annualised_refuted",
    "C70_double_made",
    "C70_double_quoted"
   ],
   "note": "The statement says where the code does not do what its users expect; the witnesses are C70_base_refuted, C70_bump_zero_refuted, C70_annualised_refuted. The other theorems prove what does hold, for all inputs."
  },
  {
   "property": "C71",
   "status": "proved",
   "theorems": [
    "C71_forward",
    "C71_delta",
    "C71_no_dividends",
    "C71_signs"
   ],
   "note": "Proved in full for the model; assumptions are in the statements."
  },
  {
   "property": "C72",
   "status": "proved",
   "theorems": [
    "C72_vega",
    "C72_signs",
    "C72_volga_refuted"
   ],
   "note": "The statement says where the code does not do what its users expect; the witnesses are C72_volga_refuted. The other theorems prove what does hold, for all inputs."
  },
  {
   "property": "C73",
   "status": "proved",
   "theorems": [
    "C73_theta",
    "C73_forward_kept",
    "C73_yield",
    "C73_kept_refuted",
    "C73_decay"
   ],
   "note": "The statement says where the code does not do what its users expect; the witnesses are C73_kept_refuted. The other theorems prove what does hold, for all inputs."
  },
  {
   "property": "C74",
   "status": "proved",
   "theorems": [
    "C74_bounds",
    "C74_strikes",
    "C74_flat",
    "C74_decorated",
    "C74_expiries",
    "C74_smile_refuted"
   ],
   "note": "The statement says where the code does not do what its users expect; the witnesses are C74_smile_refuted. The other theorems prove what does hold, for all inputs."
  },
  {
   "property": "C75",
   "status": "proved",
   "theorems": [
    "C75_delta",
    "C75_no_dividends",
    "C75_theta",
    "C75_financing",
    "C75_smile_refuted"
   ],
   "note": "The statement says where the code does not do what its users expect; the witnesses are C75_smile_refuted. The other theorems prove what does hold, for all inputs."
  },
  {
   "property": "C76",
   "status": "proved",
   "theorems": [
    "C76_builds",
    "C76_text",
    "C76_years",
    "C76_late_years_refuted",
    "C76_weekdays",
    "C76_holidays",
    "C76_every_day",
    "C76_unsigned",
    "C76_unsigned_refuted",
    "C76_unsigned_back",
    "C76_shown",
    "C76_shown_right",
    "C76_infinite_refuted"
   ],
   "note": "The statement says where the code does not do what its users expect; the witnesses are C76_late_years_refuted, C76_unsigned_refuted, C76_infinite_refuted. The other theorems prove what does hold, for all inputs."
  },
  {
   "property": "C77",
   "status": "proved",
   "theorems": [
    "C77_price",
    "C77_unique",
    "C77_found",
    "C77_own",
    "C77_reprices",
    "C77_outside",
    "C77_arbitrage"
   ],
   "note": "Proved in full for the model; assumptions are in the statements."
  },
  {
   "property": "C78",
   "status": "proved",
   "theorems": [
    "C78_forward",
    "C78_forward_refuted",
    "C78_prices",
    "C78_adds",
    "C78_bumped",
    "C78_reports",
    "C78_adds_refuted",
    "C78_reports_refuted"
   ],
   "note": "The statement says where the code does not do what its users expect; the witnesses are C78_forward_refuted, C78_adds_refuted, C78_reports_refuted. The other theorems prove what does hold, for all inputs."
  },
  {
   "property": "C79",
   "status": "proved",
   "theorems": [
    "C79_paths",
    "C79_gamma",
    "C79_delta",
    "C79_delta_refuted",
    "C79_expected"
   ],
   "note": "The statement says where the code does not do what its users expect; the witnesses are C79_delta_refuted. The other theorems prove what does hold, for all inputs."
  },
  {
   "property": "C80",
   "status": "proved",
   "theorems": [
    "C80_exact",
    "C80_doubles",
    "C80_near",
    "C80_finite",
    "C80_itself_refuted",
    "C80_itself",
    "C80_no_bump",
    "C80_no_bump_refuted"
   ],
   "note": "The statement says where the code does not do what its users expect; the witnesses are C80_itself_refuted, C80_no_bump_refuted. The other theorems prove what does hold, for all inputs."
  },
  {
   "property": "C81",
   "status": "proved",
   "theorems": [
    "C81_portfolio",
    "C81_basket",
    "C81_order",
    "C81_order_refuted",
    "C81_average"
   ],
   "note": "The statement says where the code does not do what its users expect; the witnesses are C81_order_refuted. The other theorems prove what does hold, for all inputs."
  },
  {
   "property": "C82",
   "status": "proved",
   "theorems": [
    "C82_paths",
    "C82_price"
   ],
   "note": "Proved in full for the model; assumptions are in the statements."
  },
  {
   "property": "C83",
   "status": "proved",
   "theorems": [
    "C83_forward",
    "C83_fraction"
   ],
   "note": "Proved in full for the model; assumptions are in the statements."
  },
  {
   "property": "C84",
   "status": "proved",
   "theorems": [
    "C84_option"
   ],
   "note": "Proved in full for the model; assumptions are in the statements."
  },
  {
   "property": "C85",
   "status": "proved",
   "theorems": [
    "C85_greeks",
    "C85_vegas",
    "C85_theta"
   ],
   "note": "Proved in full for the model; assumptions are in the statements."
  }
 ]
}