"""Writes MANIFEST.json."""
import json, os
C = []
def claim(prop, theorems, note, status="proved"):
    C.append({"property": prop, "status": status, "theorems": theorems, "note": note})

claim("C01", ["C01_streaming_is_stepping", "C01_stepping_is_streaming", "C49_stream", "C48_streamed", "library_operators_are_genuine"],
      "Both directions, every operator, every float arithmetic. 'uniform' renders that a TensorFlow graph is traced once.")
claim("C02", ["C02_two_chunks_are_one_series", "C02_one_series_is_two_chunks", "C02_library_two_chunks_are_one_series", "C02_library_one_series_is_two_chunks", "C02_shaped"], "Both directions.")
claim("C03", ["C03_causal", "C03_library_causal", "C03_shaped"], "")
claim("C04", ["C04_initial_state_is_the_default", "C04_initial_state_is_the_default_streamed",
              "C04_shipped_compositions", "C04_library", "C04_refuted_with_surplus_inputs"],
      "For every library operator and composition given the number of inputs each operator declares (wired); with surplus inputs the property fails, which is proved too.")
claim("C05", ["C05_unequal_lengths_rejected", "C05_unequal_lengths_error"], "No assumption on the operator.")
claim("C06", ["C06_state_types_preserved", "C06_state_type_change_rejected", "C06_state_shapes_preserved", "C06_state_shape_change_rejected"], "")
claim("C07", ["C07_output_lengths"], "No assumption on the operator.")

claim("C08", ["C08_streams_in_turn", "C08_next", "C08_first", "C08_one_operator", "C08_single_call", "C08_loop", "C08_nesting", "C08_unnesting", "C08_library"],
      "Every list of operators. good_stage renders that a stage has outputs of one structure and that its reported initial state is its default (C04).")
claim("C09", ["C09_streams_independently", "C09_single_call"], "Both directions, every list of operators.")
claim("C10", ["C10_fewer_inputs", "C10_more_inputs", "C10_more_inputs_streamed", "C10_fewer_states"], "")
claim("C11", ["C11_factory", "C11_factory_is_join"], "")
claim("C15", ["C15_lag", "C15_lag_history"], "Every dtype and shape; also resumed streams.")
claim("C16", ["C16_set_during"], "Every nested structure of tensors of the dtype of v.")
claim("C17", ["C17_simple_moving_average", "C17_simple_moving_average_history"], "Histories of at most 2^31 steps (see C46).")
claim("C18", ["C18_recurrence", "C18_history", "C18_bounds"], "Recurrence for every float arithmetic, bounds in exact arithmetic.")
claim("C19", ["C19_recurrence", "C19_history", "C19_bounds", "C19_nonnegative"], "Recurrence for every float arithmetic, bounds in exact arithmetic.")
claim("C20", ["C20_deviation", "C20_history", "C20_zero_iff_constant", "C20_translation_invariant"], "")
claim("C21", ["C21_bands", "C21_history", "C21_ordered"], "Order of the bands in exact arithmetic.")

claim("C22", ["C22_return", "C22_logarithmic_return", "C22_return_history", "C22_logarithmic_return_history"], "")
claim("C23", ["C23_momentum", "C23_momentum_history"], "")
claim("C24", ["C24_macd", "C24_macd_history"], "")
claim("C25", ["C25_crossover", "C25_crossover_history"], "")
claim("C26", ["C26_zero_crossover", "C26_zero_crossover_history", "orderly_arithmetic"], "For every arithmetic with the listed order properties; orderly_arithmetic proves them of float32 (without NaN) and of exact arithmetic.")
claim("C27", ["C27_macd_signal", "C27_no_crossing_refuted", "C27_crossover_signal"], "Including the signal emitted without a crossing, with a concrete series.")
claim("C28", ["C28_rsi", "C28_rsi_history", "C28_exact"], "Bounds and NaN condition in exact arithmetic with IEEE special values.")
claim("C29", ["C29_average_true_range", "C29_average_true_range_history", "C29_exact"], "Nonnegative in exact arithmetic.")
claim("C30", ["C30_supertrend_lines", "C30_supertrend_succeeds_iff_calm", "C30_supertrend_history", "C30_supertrend_total_refuted"], "The abort is shown on concrete well-formed prices in float32.")
claim("C31", ["C31_heikin_ashi", "C31_heikin_ashi_history", "C31_exact"], "Order of the outputs in exact arithmetic.")
claim("C32", ["C32_drawdown", "C32_drawdown_history", "C32_exact"], "Bounds in exact arithmetic.")
claim("C34", ["C34_sharpe_ratio", "C34_sharpe_ratio_history", "C34_exact"], "")
claim("C35", ["C35_skewness", "C35_skewness_history", "C35_exact"], "")
claim("C36", ["C36_volatility", "C36_defined_returns", "C36_placeholders", "C36_volatility_history"], "")
claim("C37", ["C37_succeeds", "C37_accounting", "C37_buying", "C37_selling", "C37_history"], "")
claim("C38", ["C38_forgotten", "C38_alternate", "C38_alternation_refuted"], "")
claim("C39", ["C39_correlation", "C39_correlation_history", "C39_exact"], "")
claim("C40", ["C40_cross_correlation", "C40_auto_correlation", "C40_cross_correlation_history", "C40_auto_correlation_history", "C40_exact"], "")
claim("C41", ["C41_global_minimum", "C41_global_maximum", "C41_local_minimum", "C41_local_maximum", "C41_extrema_history", "orderly_arithmetic"], "")
claim("C33", ["C33_periods_exist", "C33_periods", "C33_resumed", "C33_no_period"], "details and avg take the two series as lists.")
claim("C42", ["C42_single_call", "C42_first_transition", "C42_determined", "C42_streams", "C42_one_structure", "C42_total", "C42_streams_total"], "The hypothesis on structures is discharged by C42_one_structure.")
claim("C43", ["C43_any_value", "C43_any_nan"], "")
claim("C44", ["C44_map_fn", "C44_map_fn_two", "C44_identity", "C44_positions", "C44_flatten", "C44_flatten_map"], "")
claim("C45", ["C45_stateless", "C45_stateless_series", "C45_arithmetic_floats", "C45_arithmetic_ints", "C45_identity", "C45_fork", "C45_positive_floats", "C45_negative_floats", "C45_positive_ints", "C45_negative_ints", "C45_never_both", "C45_select_list", "C45_select_one", "C45_select_tuple_never"], "")
claim("C46", ["C46_positions", "C46_history", "C46_zeros_again", "C46_set_during", "C46_exponential", "C46_rolling", "C46_seeded_history", "C46_deviation", "C46_returns", "C46_momentum", "C46_correlation", "C46_bands", "C46_windows", "C46_sharpe", "C46_empty_window", "C46_reading", "C46_change_history", "C46_momentum_history", "C46_correlation_history", "C46_window_history", "C46_sharpe_history", "C46_crossover", "C46_crossover_history", "C46_macd", "C46_signals", "C46_strength", "C46_volatility", "C46_cross_correlation", "C46_auto_correlation", "C46_composed"], "Over series of any length.")
claim("C47", ["C47_filter", "C47_filter_error", "C47_consecutive"], "")

claim("C12", ["C12_columns", "C12_columns_fresh", "C12_columns_any", "C12_columns_fresh_any", "C12_columns_exist", "C12_total", "C12_shaped", "C12_wrong_size", "C12_wrong_state"], "Every operator of the library, and any other operator keeping its structures.")
claim("C13", ["C13_streams", "C13_streams_any", "C13_present_rows", "C13_present_rows_fresh", "C13_present_rows_exist", "C13_present_rows_any", "C13_total", "C13_total_fresh"], "Every operator of the library, and any other operator keeping its structures.")
claim("C14", ["C14_never", "C14_never_named", "C14_error"], "")
claim("C48", ["C48_single_call", "C48_streamed", "C48_uniform", "C48_kept", "C48_known_operators", "C48_momentum", "C48_crossover", "C48_crossover_signal", "C48_macd_signal", "C48_volatility", "C48_subtraction", "C48_addition", "C48_product", "C48_fork", "C48_identity", "C48_select", "C48_select_list", "C48_positive", "C48_negative"], "The structures are tabulated in Structure.v.")
claim("C49", ["C49_step", "C49_stream", "C49_stateless", "C49_compositions", "C02_shaped", "C03_shaped"], "The shapes are tabulated in Shapes.v. Supertrend is left out because it can abort (C30).")
claim("C50", ["C50_same_initial_state", "C50_same_initial_state_streamed", "C50_initial_state_of_another"], "Same operators as C49.")
claim("C51", ["C51_lag", "C51_averages", "C51_returns", "C51_windows", "C51_correlations", "C51_heikin_ashi", "C51_exponential_fades", "C51_rolling_fades"], "For every arithmetic; the geometric rates in exact arithmetic.")
claim("C52", ["C52_linear", "C52_macd", "C52_shift"], "In exact arithmetic.")
claim("C53", ["C53_returns", "C53_affine", "C53_correlations", "C53_autocorrelation", "C53_extrema", "C53_average_true_range", "C53_deviation", "C53_bands", "C53_candles", "C53_supertrend", "C53_drawdown", "C53_drawdown_periods", "C53_drawdown_scale_refuted", "C53_crossover", "C53_macd", "C53_signals"], "In exact arithmetic. That the drawdown never depends on the unit is refuted: its tolerance is an absolute number.")
claim("C54", ["C54_compose_congruence", "C54_join_congruence", "C54_map_congruence", "C54_ffill_congruence", "C54_compose_one", "C54_compose_flat", "C54_identity", "C54_lag_lag", "C54_join_of_pipelines", "C54_select_join", "C54_fan_out", "C54_map_compose", "C54_map_join", "C54_vectorised_averages", "C54_vectorised_pipelines", "C54_vectorised_compose", "C54_ffill_nothing", "C54_ffill_vectorised_refuted"], "For every arithmetic; equal outputs, the states may be nested differently. Equality with Map up to 2^31 elements.")
claim("C55", ["C55_float32", "C55_exact", "C55_simple_average", "C55_exponential_average", "C55_rolling_average", "C55_momentum", "C55_crossover", "C55_macd"], "For float32 (C55_float32) and any arithmetic rounding as accurately; sums of windows in any order.")
claim("C56", ["C56_averages", "C56_deviation", "C56_bands", "C56_relative_strength", "C56_true_range", "C56_drawdown", "C56_heikin_ashi", "C56_constant_refuted", "C56_correlation_refuted"], "Bit-exact float32; windows summed from the newest to the oldest as the model does. Exponential averages of period at most 2^20.")
claim("C57", ["C57_averages"], "Bit-exact float32; windows summed in the order of the model.")
claim("C58", ["C58_pieces", "C58_recovery", "C58_recovery_complete", "C58_total"], "Every operator given a structure by C48.")
claim("C59", ["C59_largest_range", "C59_largest_range_history", "C59_columns_refuted", "C59_scalars_only"], "C59_columns_refuted: AverageTrueRange over columns is not Map of AverageTrueRange.")
claim("C60", ["C60_float32", "C60_exact", "C60_deviation", "C60_bands", "C60_bands_any", "C60_return", "C60_log_return", "C60_volatility", "C60_true_range", "C60_heikin_ashi", "C60_drawdown", "C60_logarithm", "C60_indexed", "C60_relative_strength"], "Bands: for any number of deviations, its float32 value being given to the exact arithmetic too. Drawdown: the first output (values from 0 to 2^80, the first at least 1/1000). Relative strength: at the positions whose recent average move exceeds the rounding errors.")
claim("C61", ["C61_regrouped", "C61_same_rows", "C61_row_order", "C61_repeated_rows", "C61_missing_field", "C61_no_product"], "pandas 0.24.2 is modelled as far as transpose uses it; row labels are integers.")
claim("C62", ["C62_returns", "C62_logarithmic_returns", "C62_momentum", "C62_float32_refuted"], "Exact arithmetic; C62_float32_refuted: not bit for bit in float32.")
claim("C63", ["C63_extrema", "C63_relative_strength", "C63_skewness", "C63_sharpe", "C63_correlations", "C63_bands", "C63_ranges", "C63_candles", "C63_crossings", "C63_leading_zero_refuted", "C63_supertrend", "C63_supertrend_zero_refuted"], "Exact arithmetic (zero crossings: float32 too); C63_leading_zero_refuted: the symmetry of zero crossings fails on series starting with 0; C63_supertrend_zero_refuted: that of Supertrend fails on a close of 0.")
claim("C64", ["C64_bound", "C64_streaming", "C64_library", "C64_built_in", "C64_helpers"], "The model bounds each tf.while_loop by the number of rows and reports EFuel beyond it; no call reaches the bound, and larger bounds give the same.")
claim("C65", ["C65_float32", "C65_exact", "C65_windows", "C65_bands", "C65_averages", "C65_convergence", "C65_momentum", "C65_return", "C65_skewness", "C65_sharpe", "C65_correlation", "C65_extrema", "C65_crossings", "C65_crossover_signal", "C65_convergence_signal"], "For any arithmetic in which computing with NaN gives NaN (float32: C65_float32, exact: C65_exact). Operators built on tf.maximum, tf.minimum, tf.reduce_min and tf.reduce_max are left out: what those make of NaN depends on the build of TensorFlow.")
claim("C66", ["C66_float32", "C66_exact", "C66_turns", "C66_moves", "C66_trailing", "C66_never_aborts", "C66_safe_factor", "C66_smaller_factor_refuted"], "Turns, lines and the trailing stop hold of every successful call, in any arithmetic whose maximum and minimum return one of their arguments, not below (above) either (float32: C66_float32, exact: C66_exact). The refutation gives, for every period and every positive factor below it, a series of period + 2 well-formed bars on which the program aborts.")
claim("C67", ["C67_averages", "C67_macd", "C67_bands", "C67_pipelines", "C67_extrema", "C67_return", "C67_log_return", "C67_volatility", "C67_drawdown", "C67_average_true_range", "C67_heikin_ashi", "C67_relative_strength", "C67_return_refuted"], "Exact arithmetic (the rounding of float32 is bounded by C58 and C60). C67_return_refuted: for positive prices without a lower bound no factor works for Return.")
claim("C68", ["C68_order", "C68_windows", "C68_momentum", "C68_spread", "C68_bands", "C68_bands_sharp", "C68_strength", "C68_drawdown", "C68_memories", "C68_ranges"], "Exact arithmetic; the rounding of single operators is C55-C60.")
claim("C69", ["C69_float32", "C69_sums", "C69_sums_refuted", "C69_momentum", "C69_average", "C69_crossover", "C69_heikin_ashi", "C69_sign"], "C69_sums_refuted is the part of the property that says larger sums may depend on the order.")
claim("C70", ["C70_global_extrema", "C70_local_extrema", "C70_arithmetic", "C70_floats_only", "C70_floats_only_several", "C70_no_booleans", "C70_no_mixing"], "The series an operator accepts are described by these theorems together with C15 (Lag, all dtypes) and C45 (signs of whole numbers).")
claim("C71", ["C71_negative", "C71_negative_several", "C71_no_lag", "C71_no_lag_cross", "C71_no_window", "C71_no_window_several", "C71_ema_zero", "C71_ema_zero_refuted", "C71_rma_zero", "C71_rma_zero_refuted", "C71_atr_zero", "C71_atr_zero_refuted"], "The _refuted theorems describe what the recursive averages and the average true range do with period 0, where the rule does not hold; MACD and Supertrend with period 0 are not described. The window of CrossCorrelation and AutoCorrelation is only covered when negative.")
claim("C72", ["C72_roll", "C72_window", "C72_empty_refuted", "C72_refused", "C72_shift", "C72_floats_only"], "C72_empty_refuted says what happens to a window of no rows, which is not kept at its length.")
claim("C73", ["C73_alone", "C73_served", "C73_complete"], "An operator object is a function of the inputs and the state in the model: no step of the repository writes to self or to a global (all assignments to self are in constructors), which DESIGN.md lists under what is read off the code.")
claim("C74", ["C74_averages", "C74_spread", "C74_momentum", "C74_macd", "C74_strength", "C74_skewness", "C74_correlation", "C74_changes", "C74_drawdown"], "Exact arithmetic (instance ER); float32 is related to it by C60 and C69.")
claim("C75", ["C75_float32", "C75_exact", "C75_windows", "C75_bands", "C75_averages", "C75_convergence", "C75_momentum", "C75_return", "C75_skewness", "C75_sharpe", "C75_correlation", "C75_overflow_refuted"], "Operators built on maxima and minima (true range, relative strength, drawdown, crossings) are left out: they may forget an infinity. Inputs below 2^90 stay finite: C55.")
claim("C76", ["C76_crossover", "C76_signal", "C76_signal_refuted", "C76_macd", "C76_macd_refuted"], "Exact arithmetic (instance ER). The two _refuted theorems are parts of the property: they refute that swapping the periods only changes the sign.")
claim("C77", ["C77_any_order", "C77_warm_up_refuted", "C77_exponential_refuted"], "Exact arithmetic (instance ER); the two refutations are computed in float32, on numbers for which it is exact.")
claim("C78", ["C78_averages", "C78_windows", "C78_changes", "C78_macd", "C78_strength", "C78_drawdown", "C78_ranges", "C78_supertrend", "C78_skewness", "C78_sharpe_ratio", "C78_correlation", "C78_cross_correlation", "C78_auto_correlation"], "Exact arithmetic (instance ER).")
claim("C79", ["C79_base", "C79_first_step", "C79_later_step", "C79_compose", "C79_compose_stage", "C79_compose_first", "C79_join", "C79_map", "C79_ffill", "C79_short_states_refuted"], "C79_short_states_refuted is the witness of the exception named in the statement.")
claim("C80", ["C80_averages", "C80_crossovers", "C80_extrema", "C80_drawdown", "C80_strength"], "Exact arithmetic (instance ER).")
claim("C81", ["C81_compose_few", "C81_join_few", "C81_compose_many", "C81_join_many", "C81_compose_returned", "C81_join_returned", "C81_compose_many_streamed", "C81_join_many_streamed", "C81_mismatch_raises_refuted"], "C81_mismatch_raises_refuted is the witness that a mismatch is not always an error.")
claim("C82", ["C82_averages", "C82_crossovers", "C82_mirrored_signals_refuted", "C82_extrema", "C82_drawdown", "C82_strength"], "Exact arithmetic (instance ER).")
claim("C83", ["C83_averages", "C83_rate", "C83_macd", "C83_ranges", "C83_strength_refuted", "C83_supertrend_refuted", "C83_drawdown_refuted", "C83_extrema_refuted"], "Exact arithmetic (instance ER). The _refuted theorems show which operators never forget.")
claim("C84", ["C84_averages", "C84_momentum", "C84_macd", "C84_extrema", "C84_drawdown"], "Exact arithmetic (instance ER).")
claim("C85", ["C85_local", "C85_global", "C85_envelope"], "Exact arithmetic (instance ER), through Compose.")
here = os.path.dirname(os.path.dirname(os.path.abspath(__file__)))
json.dump({"claims": C}, open(os.path.join(here, "MANIFEST.json"), "w"), indent=1)
