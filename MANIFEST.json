{
 "claims": [
  {
   "property": "C01",
   "status": "proved",
   "theorems": [
    "C01_elementwise",
    "C01_scalar_right",
    "C01_scalar_left",
    "C01_compare",
    "C01_compare_scalar"
   ],
   "note": "Comparison results hold True (not NaN) on the warm-up bars; stated as such."
  },
  {
   "property": "C02",
   "status": "partial",
   "theorems": [
    "C02_call",
    "C02_call_fill",
    "C02_lookback",
    "C02_lookback_zero_refuted",
    "C02_shift",
    "C02_diff",
    "C02_pct_change"
   ],
   "note": "Proved for every p >= 1 and for shift, diff and pct_change with every p. REFUTED for line(-p) with p = 0: the call takes the default fill value, so line(0) is a line of NaN (C02_lookback_zero_refuted)."
  },
  {
   "property": "C03",
   "status": "proved",
   "theorems": [
    "C03_rolling"
   ],
   "note": "NaN or infinity inside a window gives NaN."
  },
  {
   "property": "C04",
   "status": "proved",
   "theorems": [
    "C04_no_repaint"
   ],
   "note": "All expressions over the operators of Expr.v, any value type."
  },
  {
   "property": "C05",
   "status": "proved",
   "theorems": [
    "C05_minperiod",
    "C05_unseeded_ewm_refuted"
   ],
   "note": "Every operator except a bare unseeded ewm (the ewma indicator), for which the warm-up half is refuted."
  },
  {
   "property": "C06",
   "status": "partial",
   "theorems": [
    "C06_reuse_partial"
   ],
   "note": "REFUTED as stated for w >= 2: values agree, the minimum period of the second call is w-1 too large."
  },
  {
   "property": "C07",
   "status": "partial",
   "theorems": [
    "C07_positional_refuted"
   ],
   "note": "REFUTED: positional diff/shift raise TypeError; positional rolling does not raise the minimum period."
  },
  {
   "property": "C08",
   "status": "partial",
   "theorems": [
    "C08_ahead_partial",
    "C08_ahead_refuted"
   ],
   "note": "REFUTED for look-aheads beyond the warm-up; proved for p <= warm-up."
  },
  {
   "property": "C09",
   "status": "proved",
   "theorems": [
    "C09_float64",
    "C09_factor_refuted",
    "C09_filters_agree"
   ],
   "note": "Exact arithmetic for every factor; in float64 for the factor 1 of smoothed accumulation (C09_float64). With other factors the scipy version rounds the first value twice (C09_factor_refuted)."
  },
  {
   "property": "C10",
   "status": "proved",
   "theorems": [
    "C10_one_to_one",
    "C10_with_names",
    "C10_case"
   ],
   "note": "Both settings of set_use_ohlc_indices_first; string remappings covered by C10_with_names."
  },
  {
   "property": "C11",
   "status": "proved",
   "theorems": [
    "C11_named"
   ],
   "note": ""
  },
  {
   "property": "C12",
   "status": "partial",
   "theorems": [
    "C12_named_prefix_partial",
    "C12_refuted",
    "C12_stolen_refuted"
   ],
   "note": "REFUTED: a configured index can take a column that a later input would find by name, and a string index is looked up without lower-casing. Proved for named prefixes."
  },
  {
   "property": "C13",
   "status": "proved",
   "theorems": [
    "C13_rejected"
   ],
   "note": ""
  },
  {
   "property": "C14",
   "status": "proved",
   "theorems": [
    "C14_single_input"
   ],
   "note": "Exact outcome of every case, including the TypeError for a string index."
  },
  {
   "property": "C15",
   "status": "partial",
   "theorems": [
    "C15_exact_refuted"
   ],
   "note": "REFUTED: the number of bars is compared instead of the number of outputs; exact outcome proved."
  },
  {
   "property": "C16",
   "status": "proved",
   "theorems": [
    "C16_kwargs_split"
   ],
   "note": ""
  },
  {
   "property": "C17",
   "status": "proved",
   "theorems": [
    "C17_defaults",
    "C17_chain",
    "C17_creation"
   ],
   "note": "Tuple defaults excluded, see C18."
  },
  {
   "property": "C18",
   "status": "partial",
   "theorems": [
    "C18_package",
    "C18_refuted"
   ],
   "note": "REFUTED for every tuple default."
  },
  {
   "property": "C19",
   "status": "partial",
   "theorems": [
    "C19_refuted",
    "C19_declared_partial"
   ],
   "note": "REFUTED: documentation and required flag are lost for every inherited parameter; own declarations proved."
  },
  {
   "property": "C20",
   "status": "proved",
   "theorems": [
    "C20_own_declaration",
    "C20_own_duplicates",
    "C20_inherited",
    "C20_keep_last",
    "C20_package",
    "C20_package_rooted"
   ],
   "note": ""
  },
  {
   "property": "C21",
   "status": "partial",
   "theorems": [
    "C21_single",
    "C21_exact",
    "C21_refuted",
    "C21_package"
   ],
   "note": "Proved for one renaming and for every class of the package; REFUTED for two or more (late binding); exact resolution proved."
  },
  {
   "property": "C22",
   "status": "proved",
   "theorems": [
    "C22_once",
    "C22_base_first",
    "C22_general"
   ],
   "note": ""
  },
  {
   "property": "C23",
   "status": "proved",
   "theorems": [
    "C23_restored",
    "C23_exact"
   ],
   "note": ""
  },
  {
   "property": "C24",
   "status": "partial",
   "theorems": [
    "C24_refuted",
    "C24_partial"
   ],
   "note": "REFUTED for every history with a call aborted while its initialisers ran; proved for all other histories."
  },
  {
   "property": "C25",
   "status": "proved",
   "theorems": [
    "C25_return",
    "C25_configured"
   ],
   "note": ""
  },
  {
   "property": "C26",
   "status": "partial",
   "theorems": [
    "C26_refuted",
    "C26_main_partial"
   ],
   "note": "REFUTED: every call from another thread raises AttributeError; the importing thread is unaffected."
  },
  {
   "property": "C27",
   "status": "partial",
   "theorems": [
    "C27_refuted"
   ],
   "note": "REFUTED: exact effect of any history proved."
  },
  {
   "property": "C28",
   "status": "partial",
   "theorems": [
    "C28_exact_refuted"
   ],
   "note": "REFUTED: exact effect of any history proved."
  },
  {
   "property": "C29",
   "status": "proved",
   "theorems": [
    "C29_priority",
    "C29_mode",
    "C29_flag_removed"
   ],
   "note": ""
  },
  {
   "property": "C30",
   "status": "proved",
   "theorems": [
    "C30_last_setter",
    "C30_initial",
    "C30_meaning"
   ],
   "note": ""
  },
  {
   "property": "C31",
   "status": "partial",
   "theorems": [
    "C31_exact",
    "C31_refuted",
    "C31_class_names"
   ],
   "note": "REFUTED for the listed collisions, proved for all other aliases and all class names."
  },
  {
   "property": "C32",
   "status": "proved",
   "theorems": [
    "C32_listing",
    "C32_order",
    "C32_by_name"
   ],
   "note": ""
  },
  {
   "property": "C33",
   "status": "proved",
   "theorems": [
    "C33_sma"
   ],
   "note": ""
  },
  {
   "property": "C34",
   "status": "proved",
   "theorems": [
    "C34_wma"
   ],
   "note": ""
  },
  {
   "property": "C35",
   "status": "proved",
   "theorems": [
    "C35_ema",
    "C35_ema_unique"
   ],
   "note": ""
  },
  {
   "property": "C36",
   "status": "proved",
   "theorems": [
    "C36_smma",
    "C36_smma_unique"
   ],
   "note": ""
  },
  {
   "property": "C37",
   "status": "proved",
   "theorems": [
    "C37_dema",
    "C37_tema",
    "C37_gdema",
    "C37_t3",
    "C37_t3_gd",
    "C37_trix",
    "C37_trix_any",
    "C37_trima",
    "C37_trima_within",
    "C37_constant",
    "C37_constant_exponential"
   ],
   "note": ""
  },
  {
   "property": "C38",
   "status": "partial",
   "theorems": [
    "C38_short_window_partial",
    "C38_short_exponential_refuted"
   ],
   "note": "Proved for sma/wma, REFUTED for ema/smma (IndexError for every short history)."
  },
  {
   "property": "C39",
   "status": "proved",
   "theorems": [
    "C39_efficiency",
    "C39_smoothing",
    "C39_kama",
    "C39_lookback"
   ],
   "note": "For the default volatility lookback of 1 bar, with an exact account of flat windows (missing from then on); C39_lookback gives the recurrence for any lookback."
  },
  {
   "property": "C40",
   "status": "partial",
   "theorems": [
    "C40_refuted",
    "C40_short_input"
   ],
   "note": "REFUTED: C40_refuted shows that every input line with a warm-up makes the call raise IndexError."
  },
  {
   "property": "C41",
   "status": "proved",
   "theorems": [
    "C41_any_average",
    "C41_sma",
    "C41_ema",
    "C41_ema_short"
   ],
   "note": ""
  },
  {
   "property": "C42",
   "status": "partial",
   "theorems": [
    "C42_no_repaint_partial",
    "C42_refuted",
    "C42_averages"
   ],
   "note": "REFUTED outside of the ta-lib emulation (C42_refuted: a later longer period erases delivered values); C42_no_repaint_partial proves it for the emulation, and otherwise when no later period is longer."
  },
  {
   "property": "C43",
   "status": "proved",
   "theorems": [
    "C43_var_stddev",
    "C43_sample",
    "C43_too_short"
   ],
   "note": ""
  },
  {
   "property": "C44",
   "status": "proved",
   "theorems": [
    "C44_bbands"
   ],
   "note": ""
  },
  {
   "property": "C45",
   "status": "proved",
   "theorems": [
    "C45_linear_regression",
    "C45_unique",
    "C45_period_one"
   ],
   "note": "The intercept without _talib is the value one bar before the window (x axis starts at 1)."
  },
  {
   "property": "C46",
   "status": "proved",
   "theorems": [
    "C46_correl",
    "C46_symmetric",
    "C46_affine"
   ],
   "note": "The declared minimum period ignores the second input; exact values proved for both."
  },
  {
   "property": "C47",
   "status": "partial",
   "theorems": [
    "C47_beta_partial",
    "C47_beta_refuted"
   ],
   "note": "REFUTED: the regression is the other way round (market on asset); exact value proved."
  },
  {
   "property": "C48",
   "status": "proved",
   "theorems": [
    "C48_rsi_bounds",
    "C48_averages",
    "C48_rsi_value",
    "C48_rsi_too_few_bars"
   ],
   "note": ""
  },
  {
   "property": "C49",
   "status": "proved",
   "theorems": [
    "C49_stochastic_and_williamsr",
    "C49_averages_bounded",
    "C49_averages"
   ],
   "note": ""
  },
  {
   "property": "C50",
   "status": "proved",
   "theorems": [
    "C50_aroon",
    "C50_distance_unique"
   ],
   "note": ""
  },
  {
   "property": "C51",
   "status": "proved",
   "theorems": [
    "C51_cmo",
    "C51_mfi"
   ],
   "note": ""
  },
  {
   "property": "C52",
   "status": "proved",
   "theorems": [
    "C52_true_range",
    "C52_atr_natr",
    "C52_atr_any_average"
   ],
   "note": ""
  },
  {
   "property": "C53",
   "status": "partial",
   "theorems": [
    "C53_truehigh_refuted"
   ],
   "note": "REFUTED: truehigh raises AttributeError for every input."
  },
  {
   "property": "C54",
   "status": "proved",
   "theorems": [
    "C54_movements",
    "C54_smoothers",
    "C54_averages",
    "C54_directional_indicators",
    "C54_dx",
    "C54_adx",
    "C54_adxr",
    "C54_adxr_one_bar_refuted",
    "C54_close_outside"
   ],
   "note": "For low <= close <= high; C54_close_outside shows the restriction is needed. In ta-lib mode a rating over one bar delivers only NaN (C54_adxr_one_bar_refuted)."
  },
  {
   "property": "C55",
   "status": "partial",
   "theorems": [
    "C55_directional_indicators_late_refuted"
   ],
   "note": "REFUTED: delivered one bar later than both smoothed lines; exact values proved."
  },
  {
   "property": "C56",
   "status": "partial",
   "theorems": [
    "C56_smacc",
    "C56_smacc_pearly_partial",
    "C56_smacc_pearly_raw_refuted",
    "C56_short_history"
   ],
   "note": "REFUTED for inputs without warm-up (seed 0); proved for inputs with a warm-up."
  },
  {
   "property": "C57",
   "status": "proved",
   "theorems": [
    "C57_macd_apo",
    "C57_macd_ema",
    "C57_macd_talib",
    "C57_ppo",
    "C57_ppo_positive"
   ],
   "note": ""
  },
  {
   "property": "C58",
   "status": "partial",
   "theorems": [
    "C58_ppofast_negated",
    "C58_ppofast_refuted"
   ],
   "note": "REFUTED: delivers the negative of the documented formula; exact value proved."
  },
  {
   "property": "C59",
   "status": "proved",
   "theorems": [
    "C59_mom",
    "C59_roc_family",
    "C59_roc_zero"
   ],
   "note": ""
  },
  {
   "property": "C60",
   "status": "proved",
   "theorems": [
    "C60_crossup",
    "C60_crossdown",
    "C60_exclusive"
   ],
   "note": ""
  },
  {
   "property": "C61",
   "status": "partial",
   "theorems": [
    "C61_crossover_refuted"
   ],
   "note": "REFUTED: crossover always raises TypeError; the two cross indicators it is built from are proved."
  },
  {
   "property": "C62",
   "status": "proved",
   "theorems": [
    "C62_run",
    "C62_determined",
    "C62_sides",
    "C62_monotone",
    "C62_range",
    "C62_short_input"
   ],
   "note": "With the full set of Wilder rules; the stop is moreover monotone inside a trend and inside the range of past prices."
  },
  {
   "property": "C63",
   "status": "proved",
   "theorems": [
    "C63_rules",
    "C63_default",
    "C63_short_input"
   ],
   "note": "The sign is the trend when prices are positive."
  },
  {
   "property": "C64",
   "status": "proved",
   "theorems": [
    "C64_obv",
    "C64_obv_talib",
    "C64_ad",
    "C64_ad_close_outside",
    "C64_adosc"
   ],
   "note": "For closes inside their bars; C64_ad_close_outside shows the restriction is needed."
  },
  {
   "property": "C65",
   "status": "proved",
   "theorems": [
    "C65_ultimate_oscillator",
    "C65_zero_factors",
    "C65_balance_of_power"
   ],
   "note": ""
  },
  {
   "property": "C66",
   "status": "proved",
   "theorems": [
    "C66_extremes",
    "C66_midprice",
    "C66_midpoint",
    "C66_maxindex",
    "C66_minindex",
    "C66_minmaxindex"
   ],
   "note": ""
  },
  {
   "property": "C67",
   "status": "partial",
   "theorems": [
    "C67_maxindex_abs_partial",
    "C67_minindex_abs_partial",
    "C67_minmaxindex_abs_partial",
    "C67_maxindex_abs_refuted"
   ],
   "note": "REFUTED for inputs with warm-up k >= 1 (the index is bar - k); right for raw data."
  },
  {
   "property": "C68",
   "status": "partial",
   "theorems": [
    "C68_parameters_refuted"
   ],
   "note": "REFUTED: the named parameters never have an effect."
  },
  {
   "property": "C69",
   "status": "proved",
   "theorems": [
    "C69_dcperiod"
   ],
   "note": "Delivered values are between 5.88 and 50, and the divisor is at least 0.39 on every computed bar."
  },
  {
   "property": "C70",
   "status": "proved",
   "theorems": [
    "C70_prices",
    "C70_two_inputs",
    "C70_math",
    "C70_sqrt"
   ],
   "note": ""
  },
  {
   "property": "C71",
   "status": "proved",
   "theorems": [
    "C71_positional",
    "C71_accepted"
   ],
   "note": ""
  },
  {
   "property": "C72",
   "status": "partial",
   "theorems": [
    "C72_refuted",
    "C72_package_refuted"
   ],
   "note": "REFUTED two generations down (natr/tr)."
  },
  {
   "property": "C73",
   "status": "partial",
   "theorems": [
    "C73_listing",
    "C73_by_group",
    "C73_selected",
    "C73_groups",
    "C73_names_by_group",
    "C73_exact",
    "C73_refuted"
   ],
   "note": "REFUTED for exactly cmo, smacc, mom; the listing by group is proved exact."
  },
  {
   "property": "C74",
   "status": "proved",
   "theorems": [
    "C74_mad",
    "C74_cci"
   ],
   "note": ""
  },
  {
   "property": "C75",
   "status": "proved",
   "theorems": [
    "C75_stochrsi"
   ],
   "note": "The extra output of the ta-lib mode is the subject of C28."
  },
  {
   "property": "C76",
   "status": "proved",
   "theorems": [
    "C76_phasor",
    "C76_determined"
   ],
   "note": ""
  },
  {
   "property": "C77",
   "status": "proved",
   "theorems": [
    "C77_dcphase",
    "C77_sine"
   ],
   "note": ""
  },
  {
   "property": "C78",
   "status": "proved",
   "theorems": [
    "C78_trendline"
   ],
   "note": ""
  },
  {
   "property": "C79",
   "status": "proved",
   "theorems": [
    "C79_trendmode"
   ],
   "note": ""
  },
  {
   "property": "C80",
   "status": "proved",
   "theorems": [
    "C80_no_repaint"
   ],
   "note": ""
  },
  {
   "property": "C81",
   "status": "proved",
   "theorems": [
    "C81_choice",
    "C81_determined"
   ],
   "note": ""
  },
  {
   "property": "C82",
   "status": "proved",
   "theorems": [
    "C82_ewma",
    "C82_ewma_adjusted",
    "C82_within"
   ],
   "note": ""
  },
  {
   "property": "C83",
   "status": "proved",
   "theorems": [
    "C83_ema_fades",
    "C83_smma_fades",
    "C83_vanishes"
   ],
   "note": ""
  },
  {
   "property": "C84",
   "status": "proved",
   "theorems": [
    "C84_mama",
    "C84_short",
    "C84_weight",
    "C84_no_lookahead"
   ],
   "note": ""
  },
  {
   "property": "C85",
   "status": "partial",
   "theorems": [
    "C85_refuted"
   ],
   "note": "REFUTED: every input with a warm-up raises IndexError, because the offset of the recursion counts the warm-up twice (C85_refuted covers all such inputs)."
  },
  {
   "property": "C86",
   "status": "partial",
   "theorems": [
    "C86_range_partial",
    "C86_floor_partial",
    "C86_refuted"
   ],
   "note": "REFUTED: the recursion starts from 0, so even a constant positive price is never reached (C86_refuted). Proved instead: the range extended by 0 and the share of the lowest price that is reached."
  },
  {
   "property": "C87",
   "status": "proved",
   "theorems": [
    "C87_access",
    "C87_errors",
    "C87_get"
   ],
   "note": ""
  },
  {
   "property": "C88",
   "status": "partial",
   "theorems": [
    "C88_direct",
    "C88_package",
    "C88_order",
    "C88_lookup",
    "C88_endless"
   ],
   "note": "REFUTED for the outputs of add, div and sub: the arithmetic method of the indicator is found instead (C88_refuted). Proved: exactly when an output can be reached, that all other outputs of the package can, and the order of look-up for every class, renamed outputs included (C88_lookup, C88_endless)."
  },
  {
   "property": "C89",
   "status": "proved",
   "theorems": [
    "C89_frame",
    "C89_once",
    "C89_assign"
   ],
   "note": ""
  },
  {
   "property": "C90",
   "status": "proved",
   "theorems": [
    "C90_missing",
    "C90_no_outputs",
    "C90_undeclared"
   ],
   "note": ""
  },
  {
   "property": "C91",
   "status": "proved",
   "theorems": [
    "C91_minperiod"
   ],
   "note": ""
  },
  {
   "property": "C92",
   "status": "proved",
   "theorems": [
    "C92_inside",
    "C92_after",
    "C92_deleted"
   ],
   "note": ""
  },
  {
   "property": "C93",
   "status": "partial",
   "theorems": [
    "C93_contains",
    "C93_contains_all"
   ],
   "note": "REFUTED: the test is also true of other assigned names and of the methods of the container (C93_refuted); C93_contains_all is the exact answer for every class, renamed outputs included."
  },
  {
   "property": "C94",
   "status": "proved",
   "theorems": [
    "C94_inputs_untouched",
    "C94_later"
   ],
   "note": "Which objects each body reads, creates and overwrites is transcribed step by step in Bodies.v for all the classes; the values computed are arbitrary."
  },
  {
   "property": "C95",
   "status": "proved",
   "theorems": [
    "C95_results_stable",
    "C95_series_stable",
    "C95_named",
    "C95_unassigned"
   ],
   "note": ""
  },
  {
   "property": "C96",
   "status": "proved",
   "theorems": [
    "C96_as_values",
    "C96_obv",
    "C96_sar"
   ],
   "note": ""
  },
  {
   "property": "C97",
   "status": "proved",
   "theorems": [
    "C97_reduction",
    "C97_reduction2",
    "C97_sum",
    "C97_mean",
    "C97_max",
    "C97_min",
    "C97_count",
    "C97_dot",
    "C97_equals",
    "C97_all",
    "C97_any"
   ],
   "note": ""
  },
  {
   "property": "C98",
   "status": "partial",
   "theorems": [
    "C98_same_length",
    "C98_other_length",
    "C98_head_refuted",
    "C98_tail_refuted",
    "C98_dropna_refuted",
    "C98_drop_duplicates_refuted",
    "C98_append_refuted",
    "C98_nlargest_refuted",
    "C98_nsmallest_refuted",
    "C98_nlargest_few",
    "C98_ahead_refuted",
    "C98_far_ahead_refuted"
   ],
   "note": "REFUTED: every method that really drops or adds a bar raises ValueError, and nlargest/nsmallest with a large enough argument deliver the values sorted, later ones first. The C98 theorems say exactly when each method works and what it gives (lines with at least one delivered bar)."
  },
  {
   "property": "C99",
   "status": "partial",
   "theorems": [
    "C99_expanding",
    "C99_missing",
    "C99_mean",
    "C99_sum",
    "C99_max",
    "C99_default",
    "C99_positional_refuted"
   ],
   "note": "REFUTED for the positional argument, which does not move the minimum period (C99_positional_refuted); proved in full for the keyword and for the default (C99_missing: with missing values)."
  },
  {
   "property": "C100",
   "status": "partial",
   "theorems": [
    "C100_setval",
    "C100_setval_to_end",
    "C100_setval_default_refuted",
    "C100_period"
   ],
   "note": "REFUTED for the default arguments of _setval, which change nothing (C100_setval_default_refuted). Otherwise proved for starts that are not before the first bar."
  },
  {
   "property": "C101",
   "status": "partial",
   "theorems": [
    "C101_slice_refuted",
    "C101_prefix_partial"
   ],
   "note": "REFUTED: the slice keeps the minimum period, so its first k bars are skipped again (C101_slice_refuted is the exact value); proved for slices from the first bar."
  },
  {
   "property": "C102",
   "status": "partial",
   "theorems": [
    "C102_enough",
    "C102_too_short",
    "C102_declared",
    "C102_all_nan_refuted"
   ],
   "note": "REFUTED: a window alone gives NaN but a combination of two raises ValueError (C102_all_nan_refuted). C102_enough and C102_too_short give the exact number of bars from which an expression does not fail."
  },
  {
   "property": "C103",
   "status": "partial",
   "theorems": [
    "C103_no_repaint_partial",
    "C103_all_partial",
    "C103_missing_refuted",
    "C103_early_refuted"
   ],
   "note": "All indicators but mavp (REFUTED there, C42). Periods of at least 1; the fast period of the ta-lib macd not above the slow one. C103_no_repaint_partial: all but four Hilbert transform indicators, any number type; C103_all_partial: all indicators when both histories are accepted, which a missing price can prevent (C103_missing_refuted). Smoothing that starts early needs an input with a warm-up, otherwise REFUTED (C103_early_refuted)."
  },
  {
   "property": "C104",
   "status": "proved",
   "theorems": [
    "C104_minperiods",
    "C104_one"
   ],
   "note": "All indicators but mavp; periods of at least 1."
  },
  {
   "property": "C105",
   "status": "partial",
   "theorems": [
    "C105_warm_up",
    "C105_ewma_refuted"
   ],
   "note": "REFUTED for ewma, which delivers before its minimum period (C105_ewma_refuted); proved for every indicator whose outputs are not a bare ewma."
  },
  {
   "property": "C106",
   "status": "partial",
   "theorems": [
    "C106_no_repaint_partial",
    "C106_minperiods",
    "C106_warm_up",
    "C106_all_partial"
   ],
   "note": "No repaint: all indicators but mavp (REFUTED there, C42); for the four Hilbert transform ones that index with the measured cycle (C106_all_partial) both histories have to be accepted; minimum periods and warm-up as in C104 and C105."
  },
  {
   "property": "C107",
   "status": "partial",
   "theorems": [
    "C107_rsi",
    "C107_averages",
    "C107_mfi_partial",
    "C107_stochrsi",
    "C107_mfi_refuted"
   ],
   "note": "Proved for rsi (sma, sum, ema, smma, ewma, wma, trima and every average with the stated property) and stochrsi. Refuted for mfi, whose sums are running totals: 133 and negative values occur; C107_mfi_partial holds when each window is summed afresh."
  },
  {
   "property": "C108",
   "status": "partial",
   "theorems": [
    "C108_stochastic_refuted",
    "C108_williamsr_refuted",
    "C108_stochastic_partial",
    "C108_williamsr_partial"
   ],
   "note": "REFUTED: high=10.8, low=10.1, close=10.8 and period 1 give 100.00000000000001 (C108_stochastic_refuted, C108_williamsr_refuted). The bound 100 + 2^-46 is proved and attained."
  },
  {
   "property": "C109",
   "status": "proved",
   "theorems": [
    "C109_aroon",
    "C109_bop"
   ],
   "note": ""
  },
  {
   "property": "C110",
   "status": "partial",
   "theorems": [
    "C110_medprice",
    "C110_wclprice",
    "C110_midprice",
    "C110_typprice_refuted",
    "C110_sma_refuted"
   ],
   "note": "REFUTED for typprice and sma: the mean of 0.1, 0.1, 0.1 is 0.10000000000000002. Proved for medprice, wclprice and midprice."
  },
  {
   "property": "C111",
   "status": "proved",
   "theorems": [
    "C111_extremes",
    "C111_positions",
    "C111_crossings",
    "C111_truelow"
   ],
   "note": ""
  },
  {
   "property": "C112",
   "status": "proved",
   "theorems": [
    "C112_truerange",
    "C112_atr",
    "C112_natr",
    "C112_var"
   ],
   "note": ""
  },
  {
   "property": "C113",
   "status": "partial",
   "theorems": [
    "C113_exact",
    "C113_exact_mfi",
    "C113_mean_refuted",
    "C113_sum_refuted",
    "C113_sum_drift",
    "C113_mean_drift",
    "C113_fresh_sum",
    "C113_fresh_mean",
    "C113_mean_nonneg",
    "C113_rsi"
   ],
   "note": "Proved in exact arithmetic, refuted in float64 with running totals; there proved: the deviation from the window is at most in proportion to the number and size of all values so far (fresh sums: of the window), and a mean of values that are not negative is not negative."
  },
  {
   "property": "C114",
   "status": "proved",
   "theorems": [
    "C114_ema",
    "C114_smma",
    "C114_ewma",
    "C114_ewma_adjusted"
   ],
   "note": "ema and smma with their default seed, ewma with and without adjustment (C114_ewma, C114_ewma_adjusted); finite inputs."
  },
  {
   "property": "C115",
   "status": "partial",
   "theorems": [
    "C115_ewma_constant",
    "C115_ema_refuted",
    "C115_ema_close"
   ],
   "note": "Proved for ewma. Refuted for ema (price 0.11, period 5: above the price for ever), which stays within 17 (p + 1) 2^-53 of the price, relatively."
  },
  {
   "property": "C116",
   "status": "partial",
   "theorems": [
    "C116_indicators",
    "C116_line",
    "C116_number",
    "C116_compare",
    "C116_compare_subclass",
    "C116_exchange_partial",
    "C116_exchange_refuted"
   ],
   "note": "Values and start of every operation are proved. REFUTED: the right operand counts with the latest start of all its outputs, the left with that of its first output, so a + b and b + a differ for macd, ppo and others (C116_exchange_refuted). Proved equal when no output starts later than the first."
  },
  {
   "property": "C117",
   "status": "partial",
   "theorems": [
    "C117_stays_refuted",
    "C117_exactly",
    "C117_growth",
    "C117_held",
    "C117_own"
   ],
   "note": "REFUTED: the inputs and outputs of every call, failing ones included, stay in memory for ever (C117_stays_refuted); the tables of the library grow by two entries per call (C117_growth). Proved: nothing else stays, in particular no intermediate result (C117_exactly). Left out: containers of indicators called by the body of an indicator, which stay as well."
  },
  {
   "property": "C118",
   "status": "partial",
   "theorems": [
    "C118_values",
    "C118_names_partial",
    "C118_names_refuted",
    "C118_look"
   ],
   "note": "Values: proved for all histories. Names: proved unless an input is looked at; REFUTED then: the Series passed for it takes the name of the input."
  },
  {
   "property": "C119",
   "status": "partial",
   "theorems": [
    "C119_condition_refuted",
    "C119_condition_number_refuted",
    "C119_chain_refuted",
    "C119_connectives_refuted",
    "C119_extremes_refuted",
    "C119_search_refuted",
    "C119_search_partial",
    "C119_truth",
    "C119_sum",
    "C119_operators",
    "C119_unary_refuted",
    "C119_keys_refuted",
    "C119_bars",
    "C119_any_refuted",
    "C119_numbers",
    "C119_nothing",
    "C119_identity_partial"
   ],
   "note": "REFUTED: with at least one bar every condition is true, the first comparison of a chain is ignored, max and min return their last argument, any object is found in any list, abs works for lines only, indicators cannot be keys. Proved: sums and the operators."
  },
  {
   "property": "C120",
   "status": "partial",
   "theorems": [
    "C120_lines",
    "C120_defaults",
    "C120_shown",
    "C120_described",
    "C120_undescribed_refuted",
    "C120_aliases_refuted",
    "C120_texts",
    "C120_package",
    "C120_package_names_refuted",
    "C120_package_descriptions_refuted",
    "C120_package_lost"
   ],
   "note": "Proved: inputs, outputs, parameters with the defaults of calls, own descriptions. REFUTED: inherited parameters have no description (101 in the package), a class without aliases lists those of its base class, 15 aliases listed in the package belong to another class. Layout of the text is left out."
  },
  {
   "property": "C121",
   "status": "proved",
   "theorems": [
    "C121_indicator",
    "C121_session",
    "C121_variable_period",
    "C121_angle_refuted"
   ],
   "note": "Exact arithmetic with NaN and infinities; sessions of catalogue indicators, plus mavp. C121_angle_refuted shows that linearreg_angle is an exception for every window that is not level."
  },
  {
   "property": "C122",
   "status": "proved",
   "theorems": [
    "C122_dcperiod",
    "C122_bars_used",
    "C122_exceptions",
    "C122_trendmode"
   ],
   "note": "float64 with arbitrary trigonometric functions."
  },
  {
   "property": "C123",
   "status": "proved",
   "theorems": [
    "C123_columns",
    "C123_one",
    "C123_correl",
    "C123_correl_refuted",
    "C123_returns",
    "C123_beta_returns",
    "C123_returns_refuted",
    "C123_memory_refuted"
   ],
   "note": "Sessions of windowed catalogue indicators over any number type. C123_correl_refuted, C123_returns_refuted and C123_memory_refuted show where the restriction is needed."
  },
  {
   "property": "C124",
   "status": "proved",
   "theorems": [
    "C124_ema",
    "C124_smma",
    "C124_atr",
    "C124_settle",
    "C124_obv",
    "C124_ad"
   ],
   "note": "Exact arithmetic. Rates for ema, smma, atr; existence of a sufficient number of bars for dema, tema, t3, macd; constant difference for obv and ad. rsi and other ratios of exponential averages are left out."
  },
  {
   "property": "C125",
   "status": "partial",
   "theorems": [
    "C125_same",
    "C125_same_logic",
    "C125_by_label",
    "C125_method_by_label",
    "C125_logic_by_label",
    "C125_extra",
    "C125_extra_truth",
    "C125_compare",
    "C125_spelling_refuted",
    "C125_swap_refuted",
    "C125_lost_refuted",
    "C125_order_refuted"
   ],
   "note": "Proved: equal indexes, and an ascending first operand that contains the dates of the other. REFUTED: a date of the second operand only is an error, so the operands cannot be swapped; values of common dates are lost when the data start at different dates; with descending dates values appear under wrong dates. Comparisons raise as operators and align as methods, so x < y and x.lt(y) differ (C125_spelling_refuted); logical operators align and count a missing bar as False. Functions other than binary operators on different indexes are not modelled."
  },
  {
   "property": "C126",
   "status": "proved",
   "theorems": [
    "C126_mirror",
    "C126_program",
    "C126_sar_partial",
    "C126_sar_refuted",
    "C126_obv_refuted"
   ],
   "note": "Exact arithmetic with NaN and infinities; the rules are the relation mirror of MoveSpec.v, programs session_mirror. sar needs a definite first move (C126_sar_partial); C126_sar_refuted and C126_obv_refuted show the two places where the code prefers a rise."
  },
  {
   "property": "C127",
   "status": "proved",
   "theorems": [
    "C127_raised",
    "C127_program",
    "C127_relative_refuted"
   ],
   "note": "Exact arithmetic with NaN and infinities; the rules are the relation shifts of MoveSpec.v, programs session_shifts. Indicators that use the measured cycle of the Hilbert transform are left out. C127_relative_refuted: percentages, mfi and sarext."
  },
  {
   "property": "C128",
   "status": "proved",
   "theorems": [
    "C128_average",
    "C128_indicator",
    "C128_program",
    "C128_direction",
    "C128_quotient_refuted",
    "C128_direction_refuted"
   ],
   "note": "Exact arithmetic with NaN and infinities; bounds are the tables factor, avg_gap and the relation bands of BandSpec.v. Indicators with quotients, signs or positions have no bound (C128_quotient_refuted for rocr) and are left out, as are sums as seed; dema does not follow the direction of the prices (C128_direction_refuted)."
  },
  {
   "property": "C129",
   "status": "partial",
   "theorems": [
    "C129_dates",
    "C129_integers_refuted",
    "C129_unseeded",
    "C129_indicators_refuted",
    "C129_directional_refuted",
    "C129_adaptive_refuted",
    "C129_same",
    "C129_same_mama",
    "C129_set_dates",
    "C129_set_integers",
    "C129_last_refuted"
   ],
   "note": "Proved for dates, for smoothings without a seed value and for item assignment on dates. REFUTED for numbered bars: every seeded exponential smoothing raises (C129_integers_refuted), so ema, smma, dema, tema, trix, macd, apo, ppo, rsi, atr, natr and adosc with their default averages fail on every such data (C129_indicators_refuted), and so do the directional movement family (C129_directional_refuted), kama and mama (C129_adaptive_refuted; on dates mama is the usual one, C129_same_mama); line[-1] = v adds a bar (C129_last_refuted). The other indicators on integer indexes are not modelled."
  },
  {
   "property": "C130",
   "status": "proved",
   "theorems": [
    "C130_regression",
    "C130_variance",
    "C130_averages",
    "C130_extremes",
    "C130_changes",
    "C130_period_one",
    "C130_wilder",
    "C130_t3",
    "C130_beta",
    "C130_ppo"
   ],
   "note": "Exact arithmetic, histories of numbers (missing values before the first one only); equations are between whole lines except for smma and t3, whose minimum periods differ."
  },
  {
   "property": "C131",
   "status": "partial",
   "theorems": [
    "C131_period",
    "C131_delivered",
    "C131_set",
    "C131_numbered_refuted",
    "C131_set_any",
    "C131_below_one_refuted",
    "C131_seeds"
   ],
   "note": "Proved for minimum periods of at least 1 on dates (item assignment by position: C131_set_any). REFUTED past the end of numbered bars, where a bar is added (C131_numbered_refuted), for minimum periods lowered below 1, which select the last bars (C131_below_one_refuted), and for other seed numbers, which are taken as no seed (C131_seeds)."
  },
  {
   "property": "C132",
   "status": "proved",
   "theorems": [
    "C132_apply",
    "C132_exception",
    "C132_short",
    "C132_multi",
    "C132_library",
    "C132_library_multi"
   ],
   "note": "Any function and arguments. The container passed with raw=True (array instead of Series) and functions that return a single number, which pandas repeats, are left out."
  },
  {
   "property": "C133",
   "status": "partial",
   "theorems": [
    "C133_lines_partial",
    "C133_objects_refuted",
    "C133_raw_refuted",
    "C133_reductions",
    "C133_other_reductions",
    "C133_arguments",
    "C133_unknown"
   ],
   "note": "Proved for the methods and the way of passing listed in MethodSpec.v. REFUTED for all others (C133_objects_refuted): positional lines of clip and apply, keyword lines of between, combine, corr, dot and any lines of fillna and replace reach pandas as objects, and their minimum periods do not count; a keyword named raw is lost (C133_raw_refuted). The methods with a period argument (diff, shift, pct_change) are in C02 and C07."
  },
  {
   "property": "C134",
   "status": "partial",
   "theorems": [
    "C134_directional_partial",
    "C134_adx_partial",
    "C134_directional_refuted",
    "C134_cmo_partial",
    "C134_cmo_refuted",
    "C134_running_refuted"
   ],
   "note": "Proved with 100+2^-46, the double after 100, in the place of 100 (default accumulation of the directional indicators; sums and smma for cmo, windows added up afresh). REFUTED with 100 (C134_directional_refuted with the default period, C134_cmo_refuted), and for cmo with the running totals of pandas 1.0, which reaches 300 (C134_running_refuted). The upper bound of ADX (C134_adx_partial) is larger by the factor 1 + 33 w 2^-53 and needs that no DX is missing. Left out: the directional indicators with smma in the place of the accumulation."
  },
  {
   "property": "C135",
   "status": "partial",
   "theorems": [
    "C135_exact",
    "C135_order",
    "C135_flat_partial",
    "C135_flat_refuted",
    "C135_closed_refuted",
    "C135_open_refuted"
   ],
   "note": "The order is proved in full, for variances of the windows and for the carried ones of pandas 1.0, and so is equality of the two in exact arithmetic. The width is proved for prices that are equal from the first bar on (up to 2^500, periods up to 2^40; C135_flat_partial). REFUTED with a different price before: 7.0 followed by 7.1 for ever never gives deviation 0 (C135_flat_refuted), a price of 1e9 closes the bands around moving prices for ever (C135_closed_refuted) and one of 1e16 opens them (C135_open_refuted)."
  },
  {
   "property": "C136",
   "status": "partial",
   "theorems": [
    "C136_exact",
    "C136_beta",
    "C136_symmetric",
    "C136_carried_refuted",
    "C136_window_refuted"
   ],
   "note": "Beta, symmetry and equality of carried and fresh calculations in exact arithmetic are proved in full. REFUTED for correlation: with carried means and variances 2.0 followed by 2.1 for ever has a correlation of more than 163 with itself at every bar (C136_carried_refuted); in a single window 100000000, 100000001 has correlation 0 with itself and 0.3, 0.4 more than 1 (C136_window_refuted). With exact numbers the range is C46."
  },
  {
   "property": "C137",
   "status": "partial",
   "theorems": [
    "C137_exact",
    "C137_weights",
    "C137_default_partial",
    "C137_default_refuted",
    "C137_running_refuted"
   ],
   "note": "Windows summed afresh: every value is missing or between 0 and the rounded total of the three weights (C137_weights), which for the default factors is one step above 100 (C137_default_partial); that step is taken by bars that close at their high (C137_default_refuted). With the running totals of pandas 1.0 the range is lost altogether: below -242 on prices that stand still (C137_running_refuted)."
  },
  {
   "property": "C138",
   "status": "partial",
   "theorems": [
    "C138_momentum",
    "C138_rate_of_change",
    "C138_averages",
    "C138_strength",
    "C138_range",
    "C138_macd_refuted",
    "C138_cci_refuted",
    "C138_slope_refuted"
   ],
   "note": "Proved for momentum, rates of change, true range, atr, natr, rsi, cmo, stochastic %K, %R, balance of power and the directional indicators. REFUTED for the indicators that compare averages of the price: on prices that stay at 10.01, windows summed from left to right, macd is positive for ever (C138_macd_refuted), cci is above 66 (C138_cci_refuted) and the slope of the regression line negative (C138_slope_refuted)."
  },
  {
   "property": "C139",
   "status": "partial",
   "theorems": [
    "C139_nearest_class",
    "C139_outside",
    "C139_table",
    "C139_line",
    "C139_indicator",
    "C139_nothing_else_partial",
    "C139_nothing_else_refuted"
   ],
   "note": "Installation is proved in full, for arbitrary stacks and tables and for the two classes of the package. REFUTED only in that the variables of the loops stay behind as attributes: name and opargs of lines, name of indicators (C139_nothing_else_refuted); C139_nothing_else_partial shows that there is nothing beyond these."
  },
  {
   "property": "C140",
   "status": "proved",
   "theorems": [
    "C140_sum",
    "C140_mean",
    "C140_obv",
    "C140_obv_talib",
    "C140_momentum",
    "C140_true_range",
    "C140_prices",
    "C140_balance_of_power"
   ],
   "note": "In float64. Sums and means both taken afresh and with the running totals of pandas; C140_no_room shows on a literal that the room of 2^53 units is needed."
  },
  {
   "property": "C141",
   "status": "proved",
   "theorems": [
    "C141_momentum",
    "C141_rates",
    "C141_oscillators"
   ],
   "note": "In float64, including subnormal prices and quotients that overflow."
  },
  {
   "property": "C142",
   "status": "partial",
   "theorems": [
    "C142_cmo",
    "C142_rsi_partial",
    "C142_rsi_refuted"
   ],
   "note": "Proved for cmo. For rsi: never on the wrong side of 50 (C142_rsi_partial). REFUTED only in that rsi can be exactly 50 although the average rise is one step of the format above the average fall (C142_rsi_refuted)."
  },
  {
   "property": "C143",
   "status": "proved",
   "theorems": [
    "C143_sar",
    "C143_sarext"
   ],
   "note": "In float64. The exact rules over the reals are in C62."
  }
 ]
}