{
 "claims": [
  {
   "property": "C01",
   "status": "proved",
   "theorems": [
    "C01_by_source_never_overpays",
    "C01_by_source_negative"
   ],
   "note": ""
  },
  {
   "property": "C02",
   "status": "proved",
   "theorems": [
    "C02_by_target_never_undercharges"
   ],
   "note": ""
  },
  {
   "property": "C03",
   "status": "proved",
   "theorems": [
    "C03_by_source_range",
    "C03_by_target_range"
   ],
   "note": ""
  },
  {
   "property": "C04",
   "status": "proved",
   "theorems": [
    "C04_by_source_exact_floor",
    "C04_by_target_exact_ceil",
    "C04_by_source_monotone",
    "C04_no_round_trip_profit",
    "C04_quoted_price_is_enough"
   ],
   "note": ""
  },
  {
   "property": "C05",
   "status": "proved",
   "theorems": [
    "C05_round_down",
    "C05_monotone",
    "C05_idempotent",
    "C05_format"
   ],
   "note": ""
  },
  {
   "property": "C06",
   "status": "proved",
   "theorems": [
    "C06_rate_bounds",
    "C06_rate_monotone",
    "C06_rate_representable",
    "C06_order_relations",
    "C06_order_fails_iff"
   ],
   "note": ""
  },
  {
   "property": "C07",
   "status": "proved",
   "theorems": [
    "C07_source",
    "C07_target",
    "C07_source_constant",
    "C07_target_constant"
   ],
   "note": ""
  },
  {
   "property": "C08",
   "status": "proved",
   "theorems": [
    "C08_fast_by_source",
    "C08_fast_by_target"
   ],
   "note": "By source the clamp loop needs a non-negative liquidity to terminate (C09), so the by-source statement assumes non-negative fields; the sort is any function that permutes its input."
  },
  {
   "property": "C09",
   "status": "proved",
   "theorems": [
    "C09_clamp"
   ],
   "note": ""
  },
  {
   "property": "C10",
   "status": "proved",
   "theorems": [
    "C10_overfill_refuted",
    "C10_bound_by_target",
    "C10_bound_by_source"
   ],
   "note": "The naive claim (never overfills) is refuted by a concrete reachable book; the stated bound is proved, by source for orders whose full liquidity quotes below the 256-bit limit."
  },
  {
   "property": "C11",
   "status": "proved",
   "theorems": [
    "C11_best_by_source",
    "C11_best_by_target",
    "C11_best_empty_book"
   ],
   "note": ""
  },
  {
   "property": "C12",
   "status": "proved",
   "theorems": [
    "C12_convert_price",
    "C12_convert_price_involution",
    "C12_convert",
    "C12_convert_round_trip",
    "C12_price_consistent"
   ],
   "note": ""
  },
  {
   "property": "C13",
   "status": "proved",
   "theorems": [
    "C13_limit_met",
    "C13_buy_is_sell_other",
    "C13_exclusive",
    "C13_unknown_token"
   ],
   "note": ""
  },
  {
   "property": "C14",
   "status": "proved",
   "theorems": [
    "C14_from_slash",
    "C14_create",
    "C14_accepted_iff_one_slash",
    "C14_idempotent",
    "C14_other_involution",
    "C14_other_none",
    "C14_reverse"
   ],
   "note": ""
  },
  {
   "property": "C15",
   "status": "proved",
   "theorems": [
    "C15_iso_ambiguous",
    "C15_iso_exact",
    "C15_slash_exact",
    "C15_wrong_book_refuted"
   ],
   "note": "The naive claim (a trade is filled from its own pair) is refuted by a reachable book."
  },
  {
   "property": "C16",
   "status": "proved",
   "theorems": [
    "C16_ids_distinct",
    "C16_ids_not_reused",
    "C16_terms_persist",
    "C16_add_strategy",
    "C16_links"
   ],
   "note": ""
  },
  {
   "property": "C17",
   "status": "proved",
   "theorems": [
    "C17_add_outcomes",
    "C17_add_order",
    "C17_pair_argument",
    "C17_unknown_token",
    "C17_atomic_refuted"
   ],
   "note": "Prices given as zero (division by zero in the price conversion) are excluded by prices_nonzero; whether the final report of the new orders succeeds (the ok flag) is left open, as in the code it does not affect the book."
  },
  {
   "property": "C18",
   "status": "proved",
   "theorems": [
    "C18_delete_order",
    "C18_delete_both_refuted"
   ],
   "note": ""
  },
  {
   "property": "C19",
   "status": "proved",
   "theorems": [
    "C19_fast_router",
    "C19_preview",
    "C19_buys_limit_price",
    "C19_sells_limit_price"
   ],
   "note": "The router is an arbitrary function; router_signs says only that its totals have the expected signs."
  },
  {
   "property": "C20",
   "status": "proved",
   "theorems": [
    "C20_balances",
    "C20_totals",
    "C20_strategy_totals"
   ],
   "note": ""
  },
  {
   "property": "C21",
   "status": "proved",
   "theorems": [
    "C21_buys_touch",
    "C21_sells_touch"
   ],
   "note": ""
  },
  {
   "property": "C22",
   "status": "proved",
   "theorems": [
    "C22_fast_router",
    "C22_balance_bounds",
    "C22_capacity_monotone"
   ],
   "note": "For every router that never asks an order for more than its balance (router_bounded), and C22_fast_router for the modelled fast router with any permuting sort and any curve parameters."
  },
  {
   "property": "C23",
   "status": "proved",
   "theorems": [
    "C23_append_only",
    "C23_count",
    "C23_records",
    "C23_unique",
    "C23_other_operations"
   ],
   "note": ""
  },
  {
   "property": "C24",
   "status": "proved",
   "theorems": [
    "C24_fast_router",
    "C24_failed_trade_noop",
    "C24_dangling_link",
    "C24_noop_refuted",
    "C24_collision_noop_refuted"
   ],
   "note": "Refutations: naive no-op claim (dangling link), and complete book with colliding pair names."
  },
  {
   "property": "C25",
   "status": "proved",
   "theorems": [
    "C25_negative_buy",
    "C25_negative_sell",
    "C25_positions_ignored"
   ],
   "note": ""
  },
  {
   "property": "C26",
   "status": "proved",
   "theorems": [
    "C26_by_target",
    "C26_by_source",
    "C26_zero_request_raises",
    "C26_any_orders"
   ],
   "note": "Exact arithmetic, any sort that permutes; by source the inputs sum to the smaller of the request and what the whole book can absorb."
  },
  {
   "property": "C27",
   "status": "proved",
   "theorems": [
    "C27_comparator",
    "C27_total_preorder",
    "C27_by_target_order",
    "C27_by_source_order"
   ],
   "note": "sorted() is any function that permutes and sorts when the comparator is a total preorder (insertion sort shown to qualify); by target ties go to the smaller output."
  },
  {
   "property": "C28",
   "status": "proved",
   "theorems": [
    "C28_source_is_curve",
    "C28_target_is_curve",
    "C28_target_then_source",
    "C28_source_then_target",
    "C28_floor_source",
    "C28_floor_target",
    "C28_floor_round_trip"
   ],
   "note": "Exact and floor-division versions on Q/Z; C28_source_is_curve and C28_target_is_curve identify them with the CarbonOrderUI formulas on R."
  },
  {
   "property": "C29",
   "status": "proved",
   "theorems": [
    "C29_target_split"
   ],
   "note": "Real arithmetic; sane = 0<n<1, 0<x0, 0<y0, 0<=y."
  },
  {
   "property": "C30",
   "status": "proved",
   "theorems": [
    "C30_source_split"
   ],
   "note": ""
  },
  {
   "property": "C31",
   "status": "proved",
   "theorems": [
    "C31_payment",
    "C31_equal_prices_optimal",
    "C31_equal_prices_optimal_source"
   ],
   "note": ""
  },
  {
   "property": "C32",
   "status": "proved",
   "theorems": [
    "C32_terminates",
    "C32_bounded"
   ],
   "note": "For any split function, so the loop theorems do not rest on the closed forms; accuracy bound only without partial support."
  },
  {
   "property": "C33",
   "status": "proved",
   "theorems": [
    "C33_selector",
    "C33_zero",
    "C33_empty"
   ],
   "note": "Exact arithmetic; the selection is the prefix whenever the prefix reaches the threshold."
  },
  {
   "property": "C34",
   "status": "proved",
   "theorems": [
    "C34_marginal",
    "C34_marginal_at_low",
    "C34_marginal_below",
    "C34_has_curve",
    "C34_capacity"
   ],
   "note": "Marginal price equal to or below the low price: division by zero, negative capacity (C34_marginal_at_low, C34_marginal_below)."
  },
  {
   "property": "C35",
   "status": "proved",
   "theorems": [
    "C35_forms_agree",
    "C35_forms_disagree",
    "C35_view_sane"
   ],
   "note": ""
  },
  {
   "property": "C36",
   "status": "proved",
   "theorems": [
    "C36_dy_then_dx",
    "C36_dx_then_dy",
    "C36_path_independent",
    "C36_x_then_y",
    "C36_y_then_x",
    "C36_differences"
   ],
   "note": "Real arithmetic; valid = 0<B, 0<=S, 0<yint, 0<=y<=yint."
  },
  {
   "property": "C37",
   "status": "proved",
   "theorems": [
    "C37_ends",
    "C37_marginal",
    "C37_monotone",
    "C37_effective",
    "C37_derivative"
   ],
   "note": "Additionally the price is proved to be the derivative of what is paid (C37_derivative)."
  },
  {
   "property": "C38",
   "status": "proved",
   "theorems": [
    "C38_yfromp_inverts",
    "C38_lands",
    "C38_beyond_end",
    "C38_other_side",
    "C38_regions",
    "C38_repeat",
    "C38_flat_raises"
   ],
   "note": "The three price regions are proved exhaustive (C38_regions)."
  },
  {
   "property": "C39",
   "status": "proved",
   "theorems": [
    "C39_invariant",
    "C39_centre",
    "C39_xint",
    "C39_kappa_bar",
    "C39_shape"
   ],
   "note": ""
  },
  {
   "property": "C40",
   "status": "proved",
   "theorems": [
    "C40_sale",
    "C40_range",
    "C40_dust",
    "C40_rejected",
    "C40_buyx",
    "C40_overshoot_refuted",
    "C40_negative_sale"
   ],
   "note": "C40_overshoot_refuted and C40_negative_sale exhibit failing sales that leave the curve changed."
  },
  {
   "property": "C41",
   "status": "proved",
   "theorems": [
    "C41_preview_moves_linked",
    "C41_own_curve_unchanged",
    "C41_alone_unchanged",
    "C41_tradeto_capacity",
    "C41_expand_refuted"
   ],
   "note": "C41_expand_refuted: with expandcurve the preview quotes another amount than the execution."
  },
  {
   "property": "C42",
   "status": "proved",
   "theorems": [
    "C42_range",
    "C42_share",
    "C42_covering",
    "C42_additive",
    "C42_own_token"
   ],
   "note": ""
  },
  {
   "property": "C43",
   "status": "proved",
   "theorems": [
    "C43_bracket",
    "C43_never_with_zero_eps",
    "C43_rejects",
    "C43_negative_bound",
    "C43_zero_bound"
   ],
   "note": "The loop has explicit fuel; the theorem gives a fuel from which on the result is constant."
  },
  {
   "property": "C44",
   "status": "proved",
   "theorems": [
    "C44_error",
    "C44_best",
    "C44_relative",
    "C44_exact",
    "C44_idempotent",
    "C44_monotone",
    "C44_independent",
    "C44_domain",
    "C44_width",
    "C44_smallest",
    "C44_exponent_fits_refuted"
   ],
   "note": "bindig_ok covers both the exact digit count and the float math.log2; the naive claim on the exponent width is refuted."
  },
  {
   "property": "C45",
   "status": "proved",
   "theorems": [
    "C45_lexicographic",
    "C45_order",
    "C45_prefix",
    "C45_parse",
    "C45_outcome",
    "C45_returns_true_refuted"
   ],
   "note": ""
  },
  {
   "property": "C46",
   "status": "proved",
   "theorems": [
    "C46_default",
    "C46_clamp_refuted",
    "C46_err",
    "C46_warn",
    "C46_log"
   ],
   "note": ""
  },
  {
   "property": "C47",
   "status": "proved",
   "theorems": [
    "C47_bracket",
    "C47_fees",
    "C47_partition"
   ],
   "note": ""
  },
  {
   "property": "C48",
   "status": "proved",
   "theorems": [
    "C48_one_orientation",
    "C48_same_primary",
    "C48_parse",
    "C48_prices",
    "C48_zero_price",
    "C48_numeraire",
    "C48_ranking",
    "C48_alphabetical",
    "C48_classes",
    "C48_classes_refuted"
   ],
   "note": "C48_classes_refuted: SimplePair and cpc.Pair disagree on ETH/USDC(2)."
  },
  {
   "property": "C49",
   "status": "proved",
   "theorems": [
    "C49_trade_dx",
    "C49_trade_dy",
    "C49_accepted",
    "C49_no_trade",
    "C49_round_trip",
    "C49_both_ways",
    "C49_split",
    "C49_paid_side",
    "C49_other_side",
    "C49_other_side_refuted",
    "C49_quote_dx",
    "C49_quote_dy",
    "C49_dx_max",
    "C49_dy_max",
    "C49_tvl"
   ],
   "note": "pool_ok: k, x > 0 and actual reserves between 0 and the virtual ones. C49_other_side_refuted exhibits a trade accepted within bounds that overdraws the unchecked side."
  },
  {
   "property": "C50",
   "status": "proved",
   "theorems": [
    "C50_unbounded",
    "C50_clamped",
    "C50_current",
    "C50_trade_to_price",
    "C50_inverse",
    "C50_pkpp",
    "C50_univ3",
    "C50_univ3_rejects",
    "C50_univ3_reserves",
    "C50_inrange",
    "C50_univ3_fee",
    "C50_constructors",
    "C50_univ2"
   ],
   "note": "Real arithmetic. from_univ3 accepts only prices strictly inside the range (C50_univ3_rejects)."
  },
  {
   "property": "C51",
   "status": "proved",
   "theorems": [
    "C51_pool",
    "C51_quotes",
    "C51_quotes_dy",
    "C51_trade",
    "C51_from_prices",
    "C51_range",
    "C51_as_cpc"
   ],
   "note": "For orders with a price range (S > 0); from_carbon rejects A = 0 (C51_range)."
  },
  {
   "property": "C52",
   "status": "proved",
   "theorems": [
    "C52_result",
    "C52_product",
    "C52_per_step",
    "C52_capacity",
    "C52_steps",
    "C52_failures",
    "C52_capacity_refuted"
   ],
   "note": "C52_capacity_refuted: on a cycle that visits a node twice an edge can be asked for twice its capacity."
  },
  {
   "property": "C53",
   "status": "proved",
   "theorems": [
    "C53_success",
    "C53_failure",
    "C53_forms",
    "C53_ledger",
    "C53_atomic_refuted"
   ],
   "note": "C53_atomic_refuted: a failing transport has already moved the balances."
  },
  {
   "property": "C54",
   "status": "proved",
   "theorems": [
    "C54_items",
    "C54_start_value",
    "C54_pairs",
    "C54_pairs_once",
    "C54_empty",
    "C54_subcycle",
    "C54_order",
    "C54_filter",
    "C54_rotation_refuted"
   ],
   "note": "C54_rotation_refuted: with repeated nodes a rotation may not be recognised. Equality of nodes is any decidable equality."
  },
  {
   "property": "C55",
   "status": "proved",
   "theorems": [
    "C55_mgw",
    "C55_single",
    "C55_domain",
    "C55_refused",
    "C55_negative_gap_refuted",
    "C55_tvl",
    "C55_rescale",
    "C55_rescale_once",
    "C55_rescale_composes"
   ],
   "note": "C55_negative_gap_refuted: the order of prices needs a positive gap, which is not checked."
  },
  {
   "property": "C56",
   "status": "proved",
   "theorems": [
    "C56_not_validated",
    "C56_seeding",
    "C56_tvl_not_seeded",
    "C56_seeded_refuted"
   ],
   "note": "C56_seeded_refuted exhibits a strategy with a zero risk amount and both kinds of parameters."
  },
  {
   "property": "C57",
   "status": "proved",
   "theorems": [
    "C57_lookup",
    "C57_attribute",
    "C57_assign",
    "C57_set",
    "C57_write_once",
    "C57_add",
    "C57_add_atomic_refuted",
    "C57_first_default_dropped",
    "C57_second_default",
    "C57_read_matters",
    "C57_defaults_refuted",
    "C57_construct",
    "C57_replicate_refuted",
    "C57_construct_after_read"
   ],
   "note": "Refutations: add is not atomic, set_default on a fresh object, construct as replication."
  },
  {
   "property": "C58",
   "status": "proved",
   "theorems": [
    "C58_reference",
    "C58_setval",
    "C58_inplace",
    "C58_linked_forever",
    "C58_assign_breaks",
    "C58_value_plain",
    "C58_value_nested",
    "C58_value_plain_refuted"
   ],
   "note": "Integer operations + - * // % & | ^; setval with a shared variable and binding an inner shared variable to a name are not modelled."
  },
  {
   "property": "C59",
   "status": "proved",
   "theorems": [
    "C59_ranking_by_source",
    "C59_ranking_by_target"
   ],
   "note": ""
  },
  {
   "property": "C60",
   "status": "proved",
   "theorems": [
    "C60_split_by_base",
    "C60_split_by_quote",
    "C60_split_in_the_middle",
    "C60_other_lengths_rejected",
    "C60_round_trip_refuted"
   ],
   "note": ""
  },
  {
   "property": "C61",
   "status": "proved",
   "theorems": [
    "C61_buys_limit_amt",
    "C61_sells_limit_amt"
   ],
   "note": ""
  },
  {
   "property": "C62",
   "status": "proved",
   "theorems": [
    "C62_fast_sells_limit_price",
    "C62_limit_respected_refuted"
   ],
   "note": "The violated-limit witness uses a constant router with positive totals."
  },
  {
   "property": "C63",
   "status": "proved",
   "theorems": [
    "C63_liquidity",
    "C63_dangling"
   ],
   "note": ""
  },
  {
   "property": "C64",
   "status": "proved",
   "theorems": [
    "C64_single_order",
    "C64_excluded",
    "C64_fresh_ids_refuted"
   ],
   "note": ""
  },
  {
   "property": "C65",
   "status": "proved",
   "theorems": [
    "C65_limit_is_marginal_rate",
    "C65_equalize",
    "C65_own_limit",
    "C65_monotone"
   ],
   "note": ""
  },
  {
   "property": "C66",
   "status": "proved",
   "theorems": [
    "C66_from_prices",
    "C66_from_prices_range",
    "C66_from_Qxy",
    "C66_from_Qxy_inverted"
   ],
   "note": ""
  },
  {
   "property": "C67",
   "status": "proved",
   "theorems": [
    "C67_match_optimal_target",
    "C67_match_optimal_source"
   ],
   "note": "Fuel bounds of both loops are those of C32_terminates."
  },
  {
   "property": "C68",
   "status": "proved",
   "theorems": [
    "C68_rejected_target",
    "C68_rejected_source",
    "C68_drained_target",
    "C68_drained_source"
   ],
   "note": ""
  },
  {
   "property": "C69",
   "status": "proved",
   "theorems": [
    "C69_target_served",
    "C69_target_rejected",
    "C69_target_supported",
    "C69_zero_threshold",
    "C69_default_threshold"
   ],
   "note": "tradable = proper price range, capacity >= 1 (C35 covers smaller ones), balance within capacity; fuel bounds are those of C32_terminates."
  },
  {
   "property": "C70",
   "status": "proved",
   "theorems": [
    "C70_worth",
    "C70_worth_below_capacity",
    "C70_source_served",
    "C70_source_short",
    "C70_source_supported",
    "C70_served_if_possible_refuted",
    "C70_no_threshold"
   ],
   "note": "C70_served_if_possible_refuted: the naive claim fails for every ranking on a concrete book of three orders."
  },
  {
   "property": "C71",
   "status": "proved",
   "theorems": [
    "C71_bounds",
    "C71_price_in_range",
    "C71_reciprocal",
    "C71_sp96_round_trip",
    "C71_k"
   ],
   "note": "Exact real arithmetic; 1.0001 is the exact decimal."
  },
  {
   "property": "C72",
   "status": "proved",
   "theorems": [
    "C72_scale"
   ],
   "note": ""
  },
  {
   "property": "C73",
   "status": "proved",
   "theorems": [
    "C73_reserves",
    "C73_correct_iff",
    "C73_reserves_refuted",
    "C73_tvl"
   ],
   "note": "C73_correct_iff and C73_reserves_refuted (factor 10^18 for 18/18 decimals)."
  },
  {
   "property": "C74",
   "status": "proved",
   "theorems": [
    "C74_mirror",
    "C74_quotes",
    "C74_prices",
    "C74_current",
    "C74_execute",
    "C74_price_bounds",
    "C74_price_bounds_refuted"
   ],
   "note": "C74_price_bounds_refuted: the naive claim fails for the price bounds of an unlevered pool."
  },
  {
   "property": "C75",
   "status": "proved",
   "theorems": [
    "C75_invariant",
    "C75_appends",
    "C75_unique",
    "C75_unique_refuted",
    "C75_add_edge",
    "C75_add_edge_refused",
    "C75_trade",
    "C75_trades",
    "C75_connection",
    "C75_pools"
   ],
   "note": "C75_unique_refuted: add_node can repeat a name."
  },
  {
   "property": "C76",
   "status": "proved",
   "theorems": [
    "C76_add",
    "C76_sum",
    "C76_scale",
    "C76_reverse",
    "C76_consolidated",
    "C76_plain",
    "C76_duplicate_closed"
   ],
   "note": "Duplicates of graphs without repeated names (C75_unique)."
  },
  {
   "property": "C77",
   "status": "proved",
   "theorems": [
    "C77_pro_rata",
    "C77_limits",
    "C77_forms"
   ],
   "note": ""
  },
  {
   "property": "C78",
   "status": "proved",
   "theorems": [
    "C78_product",
    "C78_missing",
    "C78_no_arbitrage",
    "C78_no_path",
    "C78_price"
   ],
   "note": "networkx shortest_path is an arbitrary function; the statement assumes only that it returns a path between the two nodes along existing edges."
  },
  {
   "property": "C79",
   "status": "proved",
   "theorems": [
    "C79_amounts",
    "C79_numbers",
    "C79_reflected",
    "C79_sum",
    "C79_order",
    "C79_sign",
    "C79_history",
    "C79_reset",
    "C79_capacity",
    "C79_statistics",
    "C79_node"
   ],
   "note": ""
  },
  {
   "property": "C80",
   "status": "proved",
   "theorems": [
    "C80_ranges",
    "C80_points",
    "C80_u3",
    "C80_u3_refused",
    "C80_u3_closed"
   ],
   "note": ""
  },
  {
   "property": "C81",
   "status": "proved",
   "theorems": [
    "C81_dispatch",
    "C81_quiet",
    "C81_arguments",
    "C81_difference",
    "C81_same",
    "C81_table",
    "C81_positional",
    "C81_baseline",
    "C81_nan_filter"
   ],
   "note": "Values of unexpected types are not modelled for fixed strategies."
  },
  {
   "property": "C82",
   "status": "proved",
   "theorems": [
    "C82_bycid",
    "C82_curveix",
    "C82_found",
    "C82_append"
   ],
   "note": "References stand for object identity; equality of curves is the dataclass equality."
  },
  {
   "property": "C83",
   "status": "proved",
   "theorems": [
    "C83_numbered",
    "C83_unique_refuted"
   ],
   "note": "C83_unique_refuted exhibits the collision."
  },
  {
   "property": "C84",
   "status": "proved",
   "theorems": [
    "C84_value",
    "C84_price"
   ],
   "note": ""
  },
  {
   "property": "C85",
   "status": "proved",
   "theorems": [
    "C85_copy",
    "C85_select",
    "C85_bycids",
    "C85_exclude",
    "C85_bypair",
    "C85_bypair_twice",
    "C85_bytkn",
    "C85_bypairs",
    "C85_tokens",
    "C85_table",
    "C85_positions"
   ],
   "note": "Unwrapping of inverters and data frames are not modelled."
  },
  {
   "property": "C86",
   "status": "proved",
   "theorems": [
    "C86_all",
    "C86_any",
    "C86_errors",
    "C86_default"
   ],
   "note": ""
  },
  {
   "property": "C87",
   "status": "proved",
   "theorems": [
    "C87_value",
    "C87_active",
    "C87_between",
    "C87_same",
    "C87_table",
    "C87_reciprocal_refuted"
   ],
   "note": "C87_reciprocal_refuted: the naive claim that the two directions are reciprocal fails for two curves."
  },
  {
   "property": "C88",
   "status": "proved",
   "theorems": [
    "C88_used_up",
    "C88_as_cpc",
    "C88_no_estimate"
   ],
   "note": "As consequence of the boundary test; Carbon curves have one side with no actual reserve by construction."
  },
  {
   "property": "C89",
   "status": "proved",
   "theorems": [
    "C89_self",
    "C89_other",
    "C89_empty"
   ],
   "note": ""
  },
  {
   "property": "C90",
   "status": "proved",
   "theorems": [
    "C90_herfindahl",
    "C90_scale",
    "C90_equal",
    "C90_one",
    "C90_range"
   ],
   "note": "Division by zero is an exception in the model (numpy returns nan)."
  },
  {
   "property": "C91",
   "status": "proved",
   "theorems": [
    "C91_raises",
    "C91_terminates",
    "C91_root",
    "C91_left_end",
    "C91_short",
    "C91_root_refuted"
   ],
   "note": "C91_root_refuted: the naive claim fails when the left end is the root. Real arithmetic; the bound 1e-6 is the class constant."
  },
  {
   "property": "C92",
   "status": "proved",
   "theorems": [
    "C92_slope",
    "C92_curvature",
    "C92_quadratic",
    "C92_line",
    "C92_descent",
    "C92_descent_refuted",
    "C92_parts",
    "C92_jacobian"
   ],
   "note": "Functions are total on the reals in the derivative statements; findminmax_nr is stated for the default number of steps or any other positive one."
  },
  {
   "property": "C93",
   "status": "proved",
   "theorems": [
    "C93_optimal",
    "C93_gain",
    "C93_monotone",
    "C93_direction"
   ],
   "note": ""
  },
  {
   "property": "C94",
   "status": "proved",
   "theorems": [
    "C94_total",
    "C94_value",
    "C94_globalmax",
    "C94_target",
    "C94_terminates",
    "C94_same_price",
    "C94_tiny_prices",
    "C94_rejects"
   ],
   "note": "C94_target needs one pool that holds the second token of the pair. simple_optimizer with a target, without target and its dxdy_sum are separate definitions of the model."
  },
  {
   "property": "C95",
   "status": "proved",
   "theorems": [
    "C95_make",
    "C95_lookup",
    "C95_is_arbitrage",
    "C95_arb",
    "C95_all_tokens"
   ],
   "note": ""
  },
  {
   "property": "C96",
   "status": "proved",
   "theorems": [
    "C96_make",
    "C96_signs",
    "C96_new",
    "C96_same_token",
    "C96_prices"
   ],
   "note": ""
  },
  {
   "property": "C97",
   "status": "proved",
   "theorems": [
    "C97_totals",
    "C97_tokens",
    "C97_length",
    "C97_unique",
    "C97_duality",
    "C97_arbitrage",
    "C97_near"
   ],
   "note": "Sets of tokens and pairs are enumerated by arbitrary permutations."
  },
  {
   "property": "C98",
   "status": "proved",
   "theorems": [
    "C98_outcome",
    "C98_one_round",
    "C98_rejects",
    "C98_start",
    "C98_arbitrage_refuted"
   ],
   "note": "The linear solver is an arbitrary length-preserving function, numpy.linalg.solve of a singular matrix is not modelled. C98_arbitrage_refuted exhibits the false profits with an exact one-dimensional solver."
  },
  {
   "property": "C99",
   "status": "proved",
   "theorems": [
    "C99_reports",
    "C99_optimal",
    "C99_values",
    "C99_prices",
    "C99_minimal",
    "C99_adjust_none"
   ],
   "note": "Prices of tokens outside the curves are 1 in the model, as the code fills them with the default."
  },
  {
   "property": "C100",
   "status": "proved",
   "theorems": [
    "C100_feasible",
    "C100_objective",
    "C100_arbitrage",
    "C100_string_argument",
    "C100_string_argument_refuted"
   ],
   "note": "cvxpy, the solver and its precision are not modelled: the problem is modelled as the set of its feasible points and its objective."
  },
  {
   "property": "C101",
   "status": "proved",
   "theorems": [
    "C101_result"
   ],
   "note": "Risk and cash token are taken to be two different names that CarbonPair leaves as they are; floats are real numbers; a path is the list of its prices."
  },
  {
   "property": "C102",
   "status": "proved",
   "theorems": [
    "C102_step",
    "C102_path"
   ],
   "note": ""
  },
  {
   "property": "C103",
   "status": "proved",
   "theorems": [
    "C103_gap",
    "C103_hodl",
    "C103_idle",
    "C103_direction"
   ],
   "note": ""
  },
  {
   "property": "C104",
   "status": "proved",
   "theorems": [
    "C104_books",
    "C104_portfolio"
   ],
   "note": ""
  },
  {
   "property": "C105",
   "status": "proved",
   "theorems": [
    "C105_enter",
    "C105_cleared",
    "C105_sold_out",
    "C105_repeat"
   ],
   "note": ""
  },
  {
   "property": "C106",
   "status": "proved",
   "theorems": [
    "C106_rising",
    "C106_falling"
   ],
   "note": ""
  },
  {
   "property": "C107",
   "status": "proved",
   "theorems": [
    "C107_pairs",
    "C107_no_price",
    "C107_late",
    "C107_zero",
    "C107_flat",
    "C107_none",
    "C107_refused",
    "C107_capacity",
    "C107_ready_refuted",
    "C107_zero_refuted"
   ],
   "note": "C107_ready_refuted and C107_zero_refuted refute the naive claims. Prices that are not positive are outside of the other six properties."
  },
  {
   "property": "C108",
   "status": "proved",
   "theorems": [
    "C108_encode",
    "C108_benchmark",
    "C108_negative",
    "C108_swapped",
    "C108_descr",
    "C108_descr_refuted"
   ],
   "note": "Floats are exact rationals and the square root is the exact one of TradeModel.encodeRate. C108_descr_refuted: descr of a legal order raises."
  },
  {
   "property": "C109",
   "status": "proved",
   "theorems": [
    "C109_both",
    "C109_full",
    "C109_marg",
    "C109_capacity_refuted",
    "C109_cases",
    "C109_yzAB_float",
    "C109_yzAB_int",
    "C109_yzAB_token",
    "C109_yzAB_refuted"
   ],
   "note": "C109_capacity_refuted and C109_yzAB_refuted refute the naive claims (0 <= y <= z; A_ gives back A)."
  },
  {
   "property": "C110",
   "status": "proved",
   "theorems": [
    "C110_token",
    "C110_accept",
    "C110_byticker",
    "C110_byaddr",
    "C110_name",
    "C110_unique",
    "C110_containsall",
    "C110_restore",
    "C110_hash",
    "C110_consistent_refuted"
   ],
   "note": "ASCII strings. C110_consistent_refuted: a container whose two lookups disagree."
  },
  {
   "property": "C111",
   "status": "proved",
   "theorems": [
    "C111_wei",
    "C111_wei_down",
    "C111_wei_none",
    "C111_bignumber",
    "C111_other",
    "C111_hex",
    "C111_camel",
    "C111_snake",
    "C111_camel_refuted",
    "C111_join",
    "C111_join_empty",
    "C111_join_refuted",
    "C111_call"
   ],
   "note": "ASCII strings; C111_camel_refuted and C111_join_refuted give the exceptions. The http exchange itself is not modelled."
  },
  {
   "property": "C112",
   "status": "proved",
   "theorems": [
    "C112_range",
    "C112_range_zero",
    "C112_foreign",
    "C112_liquidity",
    "C112_depth",
    "C112_depths",
    "C112_pairs",
    "C112_market",
    "C112_values",
    "C112_flag_refuted"
   ],
   "note": "The server is an arbitrary record of functions; C112_flag_refuted refutes the documented meaning of the flag."
  },
  {
   "property": "C113",
   "status": "proved",
   "theorems": [
    "C113_create",
    "C113_pair",
    "C113_pair_refuted",
    "C113_prepare",
    "C113_invalid",
    "C113_global",
    "C113_compose"
   ],
   "note": "C113_pair_refuted: the pair is ignored. Only the request is modelled for trades, not the answer of the server."
  },
  {
   "property": "C114",
   "status": "proved",
   "theorems": [
    "C114_user"
   ],
   "note": ""
  },
  {
   "property": "C115",
   "status": "proved",
   "theorems": [
    "C115_grid",
    "C115_increasing",
    "C115_errors",
    "C115_increasing_refuted",
    "C115_book",
    "C115_aligned_refuted"
   ],
   "note": "Exact rationals; infinities and NaN of numpy are modelled. C115_increasing_refuted, C115_aligned_refuted: the naive claims fail."
  },
  {
   "property": "C116",
   "status": "proved",
   "theorems": [
    "C116_prices",
    "C116_marginal",
    "C116_total",
    "C116_area",
    "C116_flat",
    "C116_positive",
    "C116_sumproduct"
   ],
   "note": "Exact rationals with numpy infinities and NaN."
  },
  {
   "property": "C117",
   "status": "proved",
   "theorems": [
    "C117_sells",
    "C117_buys",
    "C117_negative",
    "C117_arguments",
    "C117_independent"
   ],
   "note": "For every router; uses the simulator model of C16-C25."
  },
  {
   "property": "C118",
   "status": "proved",
   "theorems": [
    "C118_price",
    "C118_constants",
    "C118_default_pair"
   ],
   "note": "The constants BID and ASK and the default pair are unusable (C118_constants, C118_default_pair)."
  },
  {
   "property": "C119",
   "status": "proved",
   "theorems": [
    "C119_total",
    "C119_cover",
    "C119_cells",
    "C119_missing",
    "C119_flat"
   ],
   "note": "Real numbers; equal prices divide by zero (numpy floats would give inf or nan instead)."
  },
  {
   "property": "C120",
   "status": "proved",
   "theorems": [
    "C120_curves",
    "C120_errors",
    "C120_ticker_refuted"
   ],
   "note": "C120_ticker_refuted: known tokens are shown with placeholders."
  },
  {
   "property": "C121",
   "status": "proved",
   "theorems": [
    "C121_nearest",
    "C121_tie",
    "C121_twice",
    "C121_kept",
    "C121_digits_refuted"
   ],
   "note": "C121_digits_refuted: one digit more than asked for."
  },
  {
   "property": "C122",
   "status": "proved",
   "theorems": [
    "C122_parameters",
    "C122_price",
    "C122_decimals"
   ],
   "note": "Real numbers; the wei amounts are not rounded by the code either."
  },
  {
   "property": "C123",
   "status": "proved",
   "theorems": [
    "C123_bridge",
    "C123_ends",
    "C123_errors",
    "C123_positive_refuted",
    "C123_length_refuted"
   ],
   "note": "The random numbers are an argument; real numbers, so the assertion only fails for b=0. C123_positive_refuted, C123_length_refuted."
  },
  {
   "property": "C124",
   "status": "proved",
   "theorems": [
    "C124_fine",
    "C124_kept",
    "C124_between",
    "C124_coarse",
    "C124_options",
    "C124_two_points",
    "C124_original_refuted"
   ],
   "note": "C124_original_refuted: the message printed is wrong. Real times in days."
  },
  {
   "property": "C125",
   "status": "proved",
   "theorems": [
    "C125_volatility",
    "C125_value",
    "C125_errors"
   ],
   "note": "A zero time is an exception in the model (numpy returns inf or nan)."
  },
  {
   "property": "C126",
   "status": "proved",
   "theorems": [
    "C126_path",
    "C126_positive",
    "C126_new",
    "C126_times",
    "C126_errors"
   ],
   "note": "The random numbers are an argument; exact real exponentials."
  },
  {
   "property": "C127",
   "status": "proved",
   "theorems": [
    "C127_window",
    "C127_errors",
    "C127_tokens",
    "C127_pathtime"
   ],
   "note": "pandas selection is modelled as filtering of rows sorted by time."
  },
  {
   "property": "C128",
   "status": "proved",
   "theorems": [
    "C128_join",
    "C128_unjoin",
    "C128_pair",
    "C128_accepts",
    "C128_create",
    "C128_once",
    "C128_number",
    "C128_coinlist",
    "C128_coinlist_pt",
    "C128_empty_refuted"
   ],
   "note": "ASCII strings. C128_empty_refuted: the empty list is not recovered."
  },
  {
   "property": "C129",
   "status": "proved",
   "theorems": [
    "C129_hit",
    "C129_miss",
    "C129_silent",
    "C129_named",
    "C129_never_written",
    "C129_write",
    "C129_readonfail_refuted",
    "C129_updateonfail_refuted"
   ],
   "note": "The cache is a map from items to data, the pickling itself is not modelled. C129_readonfail_refuted and C129_updateonfail_refuted refute the documented flags."
  },
  {
   "property": "C130",
   "status": "proved",
   "theorems": [
    "C130_key",
    "C130_query",
    "C130_method",
    "C130_history",
    "C130_frequency",
    "C130_tables",
    "C130_ignored",
    "C130_joined",
    "C130_failure_refuted",
    "C130_limit_refuted"
   ],
   "note": "The server is an arbitrary function from requests to answers. C130_failure_refuted: the documented exception is not raised; C130_limit_refuted."
  },
  {
   "property": "C131",
   "status": "proved",
   "theorems": [
    "C131_new",
    "C131_wrong",
    "C131_history",
    "C131_checked",
    "C131_last",
    "C131_objects",
    "C131_dict",
    "C131_twice_refuted"
   ],
   "note": "ipywidgets is modelled by its documented behaviour. C131_twice_refuted."
  },
  {
   "property": "C132",
   "status": "proved",
   "theorems": [
    "C132_new",
    "C132_errors",
    "C132_ranges",
    "C132_none",
    "C132_start",
    "C132_inside",
    "C132_move",
    "C132_dict",
    "C132_attribute",
    "C132_scalar_refuted",
    "C132_ranges_refuted"
   ],
   "note": "ipywidgets FloatSlider is modelled by its documented behaviour (bounds in order, values moved into the range). C132_scalar_refuted, C132_ranges_refuted."
  },
  {
   "property": "C133",
   "status": "proved",
   "theorems": [
    "C133_errors",
    "C133_index",
    "C133_value",
    "C133_always",
    "C133_assign",
    "C133_index_refuted",
    "C133_labels_refuted"
   ],
   "note": "ipywidgets Dropdown is modelled by its documented behaviour. C133_index_refuted, C133_labels_refuted."
  },
  {
   "property": "C134",
   "status": "proved",
   "theorems": [
    "C134_sorted",
    "C134_all",
    "C134_extension",
    "C134_order",
    "C134_case",
    "C134_empty",
    "C134_file_refuted",
    "C134_twice_refuted"
   ],
   "note": "ASCII names. C134_file_refuted, C134_twice_refuted."
  },
  {
   "property": "C135",
   "status": "proved",
   "theorems": [
    "C135_text",
    "C135_newlines",
    "C135_bytes",
    "C135_json",
    "C135_compressed",
    "C135_wrapper",
    "C135_errors",
    "C135_type",
    "C135_path",
    "C135_text_refuted",
    "C135_compressed_refuted"
   ],
   "note": "Single-byte characters, posix paths without normalisation; gzip and json are parameters. C135_text_refuted, C135_compressed_refuted."
  },
  {
   "property": "C136",
   "status": "proved",
   "theorems": [
    "C136_numbers",
    "C136_rest",
    "C136_outcome",
    "C136_raises",
    "C136_all_refuted",
    "C136_symmetric_refuted",
    "C136_raises_refuted"
   ],
   "note": "Exact rationals. C136_all_refuted, C136_symmetric_refuted, C136_raises_refuted."
  },
  {
   "property": "C137",
   "status": "proved",
   "theorems": [
    "C137_json",
    "C137_faults",
    "C137_cases",
    "C137_prefix",
    "C137_csv",
    "C137_unknown",
    "C137_csv_refuted",
    "C137_floor_refuted"
   ],
   "note": "Real numbers; strings that are no numbers are not modelled. C137_csv_refuted, C137_floor_refuted."
  },
  {
   "property": "C138",
   "status": "proved",
   "theorems": [
    "C138_by_source_near",
    "C138_by_target_near",
    "C138_round_trip",
    "C138_by_source_overflow",
    "C138_by_target_overflow",
    "C138_constant_loss_refuted",
    "C138_monotone_refuted"
   ],
   "note": "Complements C04 (exact when nothing is rescaled). C138_constant_loss_refuted, C138_monotone_refuted."
  },
  {
   "property": "C139",
   "status": "proved",
   "theorems": [
    "C139_search",
    "C139_price",
    "C139_direct",
    "C139_same",
    "C139_fair",
    "C139_refused",
    "C139_units"
   ],
   "note": "networkx.shortest_path is any function returning a shortest path (C139_search: one exists)."
  },
  {
   "property": "C140",
   "status": "proved",
   "theorems": [
    "C140_table",
    "C140_missing",
    "C140_selection",
    "C140_pools",
    "C140_average",
    "C140_roundtrip",
    "C140_consistent_refuted",
    "C140_connected"
   ],
   "note": "C140_consistent_refuted: without mirrored edges. Mirrors the note in the docstring of pricetable."
  },
  {
   "property": "C141",
   "status": "proved",
   "theorems": [
    "C141_adjacency",
    "C141_laplacian",
    "C141_quadratic",
    "C141_degree",
    "C141_handshake",
    "C141_connected",
    "C141_kernel",
    "C141_refused"
   ],
   "note": "networkx graphs modelled by their edges; directed Laplacian not modelled."
  },
  {
   "property": "C142",
   "status": "proved",
   "theorems": [
    "C142_amounts",
    "C142_connections",
    "C142_pools",
    "C142_rows",
    "C142_prices",
    "C142_paste_refuted"
   ],
   "note": "pandas grouping modelled as sorted groups. C142_paste_refuted."
  },
  {
   "property": "C143",
   "status": "proved",
   "theorems": [
    "C143_tuple",
    "C143_lazy",
    "C143_tables",
    "C143_tokens",
    "C143_reformat",
    "C143_tables_refuted"
   ],
   "note": "C143_tables_refuted: asdict is called with a positional argument it does not take."
  },
  {
   "property": "C144",
   "status": "proved",
   "theorems": [
    "C144_raw",
    "C144_pretty",
    "C144_aggregate",
    "C144_formats",
    "C144_settles",
    "C144_idle",
    "C144_columns_refuted"
   ],
   "note": "C144_columns_refuted: a token called pair gets no column in the aggregated table."
  },
  {
   "property": "C145",
   "status": "proved",
   "theorems": [
    "C145_scaled",
    "C145_nofees",
    "C145_nofees_refused",
    "C145_nofees_none",
    "C145_table",
    "C145_total_refuted",
    "C145_simple",
    "C145_simple_table",
    "C145_simple_results",
    "C145_simple_empty"
   ],
   "note": "C145_total_refuted: with inclk=True the total row adds up the ratios kk. The quotient by k = 0 is not modelled."
  },
  {
   "property": "C146",
   "status": "proved",
   "theorems": [
    "C146_set",
    "C146_table",
    "C146_difference",
    "C146_has",
    "C146_copy",
    "C146_slashpair",
    "C146_convention",
    "C146_refused",
    "C146_never",
    "C146_decimals_refuted",
    "C146_same_refuted"
   ],
   "note": "C146_decimals_refuted: the decimals given to from_slashpair are not those of the pair. C146_same_refuted: with equal tokens the table shows the decimals of the quote token."
  },
  {
   "property": "C147",
   "status": "proved",
   "theorems": [
    "C147_added",
    "C147_refused",
    "C147_kept",
    "C147_pairs_refuted"
   ],
   "note": "C147_pairs_refuted: strategies on different tokens end up on the same pair. Floats are reals; a returned failure and a raised exception are the same value."
  },
  {
   "property": "C148",
   "status": "proved",
   "theorems": [
    "C148_groups",
    "C148_complete",
    "C148_label",
    "C148_link",
    "C148_numbers",
    "C148_value",
    "C148_never",
    "C148_type"
   ],
   "note": "The order of a Python set of pairs is taken to be that of their first curves."
  },
  {
   "property": "C149",
   "status": "proved",
   "theorems": [
    "C149_list",
    "C149_refused",
    "C149_unknown",
    "C149_counts",
    "C149_symmetric",
    "C149_symmetric_refuted"
   ],
   "note": "C149_symmetric_refuted: the one curve WETH/USDC does not appear in the symmetric table. Data frames are labelled tables; formatting is left out."
  },
  {
   "property": "C150",
   "status": "proved",
   "theorems": [
    "C150_prices",
    "C150_std",
    "C150_stdpc",
    "C150_std_refuted",
    "C150_pricelist",
    "C150_plaggr"
   ],
   "note": "C150_std_refuted: stdpc is not std divided by prices."
  },
  {
   "property": "C151",
   "status": "proved",
   "theorems": [
    "C151_volumes",
    "C151_tokens",
    "C151_tokens_refuted"
   ],
   "note": "C151_tokens_refuted: the amounts of a token called WETH have no value and no leverage."
  },
  {
   "property": "C152",
   "status": "proved",
   "theorems": [
    "C152_last",
    "C152_new",
    "C152_container",
    "C152_value",
    "C152_object",
    "C152_trivial",
    "C152_same",
    "C152_container_refuted",
    "C152_added_refuted",
    "C152_reading_refuted"
   ],
   "note": "C152_container_refuted, C152_added_refuted, C152_reading_refuted: the scale of a curve is not that of the container it is in, and selecting from another container changes it."
  },
  {
   "property": "C153",
   "status": "proved",
   "theorems": [
    "C153_feasible",
    "C153_objective",
    "C153_common",
    "C153_fresh",
    "C153_balance_refuted"
   ],
   "note": "C153_balance_refuted: a feasible point that loses WETH. The solver itself is not modelled."
  },
  {
   "property": "C154",
   "status": "proved",
   "theorems": [
    "C154_recorded",
    "C154_possible",
    "C154_params",
    "C154_univ3",
    "C154_carbon",
    "C154_lookup",
    "C154_paths",
    "C154_trade",
    "C154_trades",
    "C154_history",
    "C154_name_refuted",
    "C154_id_refuted",
    "C154_amounts_refuted"
   ],
   "note": "C154_name_refuted, C154_id_refuted, C154_amounts_refuted. The text of a number is a parameter."
  },
  {
   "property": "C155",
   "status": "proved",
   "theorems": [
    "C155_made",
    "C155_dict",
    "C155_dicts",
    "C155_frame",
    "C155_refused",
    "C155_minimal",
    "C155_frame_refuted",
    "C155_ids_refuted"
   ],
   "note": "C155_frame_refuted (nan fees, empty containers), C155_ids_refuted. Token scales are not written. Parameters given as JSON text are left out."
  },
  {
   "property": "C156",
   "status": "proved",
   "theorems": [
    "C156_source_upper",
    "C156_source_lower",
    "C156_target_lower",
    "C156_target_upper",
    "C156_source_accepted",
    "C156_target_accepted",
    "C156_accepts_iff",
    "C156_accepts_zero",
    "C156_accepts_negative",
    "C156_past_accepted",
    "C156_past_refuted"
   ],
   "note": "C156_past_refuted: 2^128-1 passes with tolerances 0. Decimal rounding of the test (100 digits) is left out."
  },
  {
   "property": "C157",
   "status": "proved",
   "theorems": [
    "C157_single_target",
    "C157_single_source",
    "C157_fixed_prices",
    "C157_best_actions",
    "C157_fast_by_target",
    "C157_fast_by_source",
    "C157_single_test",
    "C157_fixed_test",
    "C157_best_pays_less_refuted",
    "C157_overfill_refuted",
    "C157_nothing_refuted"
   ],
   "note": "C157_best_pays_less_refuted, C157_overfill_refuted, C157_nothing_refuted: computed books. Overfilling is C10 once more, with realistic orders."
  },
  {
   "property": "C158",
   "status": "proved",
   "theorems": [
    "C158_margp",
    "C158_moving",
    "C158_gain",
    "C158_instructions",
    "C158_none",
    "C158_simple",
    "C158_simple_empty",
    "C158_container"
   ],
   "note": "Ids of curves are strings given by position; the cvxpy result is left out."
  },
  {
   "property": "C159",
   "status": "proved",
   "theorems": [
    "C159_checks",
    "C159_name",
    "C159_estimates",
    "C159_tokens",
    "C159_dict",
    "C159_frame",
    "C159_shows",
    "C159_answer",
    "C159_minimal"
   ],
   "note": "Frames with missing numbers given back as pstart, and MO_DEBUG, are left out."
  },
  {
   "property": "C160",
   "status": "proved",
   "theorems": [
    "C160_strategy",
    "C160_gap",
    "C160_book",
    "C160_no_free_lunch",
    "C160_fast_prices",
    "C160_fast",
    "C160_crossing_refuted",
    "C160_exact",
    "C160_alpha"
   ],
   "note": "The simulator is over rationals and its router a parameter with the two assumptions router_bounded and router_priced, which the fast router meets with rational curve parameters inside the price range (rounded down square roots); for the exact and the alpha router the price bounds are proved over the reals for their fills."
  },
  {
   "property": "C161",
   "status": "proved",
   "theorems": [
    "C161_parts",
    "C161_two",
    "C161_later",
    "C161_balance",
    "C161_fast_refuted"
   ],
   "note": "Over the reals, on the views of the orders the exact router reads; settling subtracts what the actions take from the balances, without the rounding of Decimals. Orders whose curves are not sane (see ExactSpec) are excluded."
  },
  {
   "property": "C162",
   "status": "proved",
   "theorems": [
    "C162_inverse",
    "C162_monotone",
    "C162_average"
   ],
   "note": "Over the reals, without the rounding of Decimals. Orders whose curves are not sane (see ExactSpec) are excluded."
  },
  {
   "property": "C163",
   "status": "proved",
   "theorems": [
    "C163_target",
    "C163_source",
    "C163_few_orders",
    "C163_no_threshold",
    "C163_all",
    "C163_served_if_possible_refuted"
   ],
   "note": "Over the reals; sorting is any function that permutes (the refutation is for every sort by descending amounts). Thresholds of at least one."
  },
  {
   "property": "C164",
   "status": "proved",
   "theorems": [
    "C164_directed",
    "C164_one_sided",
    "C164_pair",
    "C164_at",
    "C164_refused",
    "C164_empty"
   ],
   "note": "Nodes are given by their names; passing node objects is not modelled."
  },
  {
   "property": "C165",
   "status": "proved",
   "theorems": [
    "C165_strategy",
    "C165_path",
    "C165_run",
    "C165_refused",
    "C165_ranges_refuted"
   ],
   "note": "Over the reals, times in days; the loading of the file is not modelled. C165_run is for positive cash weight, valuation and prices and proper ranges."
  },
  {
   "property": "C166",
   "status": "proved",
   "theorems": [
    "C166_amounts",
    "C166_prices",
    "C166_frame",
    "C166_orderbook",
    "C166_words",
    "C166_axes_refuted"
   ],
   "note": "Over the extended rationals of AnalyticsModel; drawing is not modelled apart from which vectors are drawn."
  },
  {
   "property": "C167",
   "status": "proved",
   "theorems": [
    "C167_exact_target",
    "C167_exact_source",
    "C167_first_target",
    "C167_first_source",
    "C167_single_source",
    "C167_single_target_refuted",
    "C167_more_orders_refuted"
   ],
   "note": "Orders and fuel as in C69; a ranking is any function that permutes the orders (and sorts them in descending order where stated); by_desc of ThreshProps.v is one."
  },
  {
   "property": "C168",
   "status": "proved",
   "theorems": [
    "C168_compare",
    "C168_unary",
    "C168_index",
    "C168_index_exact_refuted",
    "C168_copy_plain",
    "C168_copy_nested",
    "C168_inner"
   ],
   "note": "Floats are rationals; hashing, complex, hex, oct and repr are not modelled; the fuel is the recursion limit."
  },
  {
   "property": "C169",
   "status": "proved",
   "theorems": [
    "C169_tables",
    "C169_refused",
    "C169_answers",
    "C169_missing_refuted"
   ],
   "note": "pandas outer joins are modelled by cells, the order of the joined index is not; times of one history are distinct."
  },
  {
   "property": "C170",
   "status": "proved",
   "theorems": [
    "C170_sync",
    "C170_checked",
    "C170_async",
    "C170_syncdefault_refuted",
    "C170_result",
    "C170_result_empty",
    "C170_addr_lost",
    "C170_server",
    "C170_url_refuted",
    "C170_method",
    "C170_balance",
    "C170_rate_refuted",
    "C170_rate",
    "C170_pairs",
    "C170_lookup",
    "C170_lookup_addr",
    "C170_addr",
    "C170_hasliquidity",
    "C170_numbers",
    "C170_depths"
   ],
   "note": "str of floats, lists and dicts and float of strings are parameters; getMatchParams, getMatchActions, getUserStrategies, version and the four test endpoints (mul, plus, qmul, qplus) are not modelled. The claims about urls are refuted for the url of the constructor (C170_url_refuted)."
  },
  {
   "property": "C171",
   "status": "proved",
   "theorems": [
    "C171_gas",
    "C171_create",
    "C171_update",
    "C171_marginal",
    "C171_marginal_refuted",
    "C171_record",
    "C171_type",
    "C171_trade",
    "C171_actions",
    "C171_data",
    "C171_sign",
    "C171_sign_refuted"
   ],
   "note": "as in C170. A json object writes the key True as true."
  },
  {
   "property": "C172",
   "status": "proved",
   "theorems": [
    "C172_pa",
    "C172_pb",
    "C172_xint",
    "C172_p_marg",
    "C172_dyfromdx",
    "C172_xfromy",
    "C172_dxfromdy",
    "C172_dxfromdy_refuted"
   ],
   "note": "with checkbounds=True. x**2 is a parameter with a relative error of at most 2^-52 (the square of the C library has less); a correctly rounded square is shown to satisfy this. Numbers are floats; ints are not modelled. The bound for every trade without a condition is refuted for dxfromdy_f (C172_dxfromdy_refuted)."
  },
  {
   "property": "C173",
   "status": "proved",
   "theorems": [
    "C173_from_prices",
    "C173_exact_refuted"
   ],
   "note": "as in C172; math.sqrt is correctly rounded. Equality of the prices is refuted (C173_exact_refuted)."
  },
  {
   "property": "C174",
   "status": "proved",
   "theorems": [
    "C174_encode",
    "C174_negative",
    "C174_decode",
    "C174_p_end",
    "C174_p_start",
    "C174_p_marg",
    "C174_range",
    "C174_below_refuted"
   ],
   "note": "int(x) truncates; an int divided by 2^48 is correctly rounded; x**2 is a parameter as in C172. The argument p_marg of encode is not part of this claim (C108 has it without rounding). \"never above the price\" is refuted (C174_below_refuted)."
  },
  {
   "property": "C175",
   "status": "proved",
   "theorems": [
    "C175_params",
    "C175_target",
    "C175_source",
    "C175_negative",
    "C175_width_refuted"
   ],
   "note": "Decimals are exact (128 digits). float(Decimal) and math.sqrt are correctly rounded. Orders made from B and S, and use_floor_division=True, are not part of this claim. \"a range keeps a positive width\" is refuted (C175_width_refuted)."
  },
  {
   "property": "C176",
   "status": "proved",
   "theorems": [
    "C176_target",
    "C176_source",
    "C176_decimal"
   ],
   "note": "Exponents of Decimals are unbounded in the model. Amounts and balances are any real numbers, in particular all Decimals. The context is that of order.py; benchmark/core changes it if it is imported later."
  },
  {
   "property": "C177",
   "status": "proved",
   "theorems": [
    "C177_rate",
    "C177_same",
    "C177_order",
    "C177_negative",
    "C177_long_refuted"
   ],
   "note": "C177_long_refuted shows that a bound on the digits is needed. Exponents of Decimals are unbounded in the model."
  },
  {
   "property": "C178",
   "status": "proved",
   "theorems": [
    "C178_source",
    "C178_target",
    "C178_empty",
    "C178_negative"
   ],
   "note": "Exponents of Decimals are unbounded in the model."
  },
  {
   "property": "C179",
   "status": "proved",
   "theorems": [
    "C179_document",
    "C179_twice",
    "C179_from_sdk",
    "C179_shared",
    "C179_descr"
   ],
   "note": "The text made by json.dumps stands for the dict it is given."
  },
  {
   "property": "C180",
   "status": "proved",
   "theorems": [
    "C180_from_kx",
    "C180_from_ky",
    "C180_from_xy",
    "C180_from_pk",
    "C180_from_px",
    "C180_from_py",
    "C180_dyfromdx",
    "C180_dxfromdy",
    "C180_execute",
    "C180_execute_y",
    "C180_bounds",
    "C180_no_drift",
    "C180_relative_refuted",
    "C180_zero_refuted",
    "C180_overpays_refuted",
    "C180_act_refuted"
   ],
   "note": "Binary64 of Flocq, rounding to nearest even. The sign of the amounts taken is that of what is put in; C180_bounds and C180_no_drift are for all signs."
  },
  {
   "property": "C181",
   "status": "proved",
   "theorems": [
    "C181_univ2_xy",
    "C181_univ2_ky",
    "C181_univ2_kx",
    "C181_pkpp",
    "C181_univ3",
    "C181_carbon",
    "C181_carbon_zero",
    "C181_top_price",
    "C181_low_end",
    "C181_high_end",
    "C181_xyfromp",
    "C181_bounded",
    "C181_univ2_refuted",
    "C181_carbon_refuted"
   ],
   "note": "Binary64 of Flocq, rounding to nearest even; y**2 is any function with a relative error of at most 2^-52. Orders of Carbon given by prices are in C182."
  },
  {
   "property": "C182",
   "status": "proved",
   "theorems": [
    "C182_prices",
    "C182_apart",
    "C182_equal",
    "C182_widen",
    "C182_refused",
    "C182_inverse",
    "C182_same",
    "C182_raise",
    "C182_read",
    "C182_order_refuted"
   ],
   "note": "Binary64 of Flocq, rounding to nearest even; y**2 is any function with a relative error of at most 2^-52."
  },
  {
   "property": "C183",
   "status": "proved",
   "theorems": [
    "C183_dy",
    "C183_dx",
    "C183_dy_max",
    "C183_dx_max",
    "C183_full",
    "C183_dxdyfromp",
    "C183_dx_max_refuted"
   ],
   "note": "Binary64 of Flocq, rounding to nearest even."
  },
  {
   "property": "C184",
   "status": "proved",
   "theorems": [
    "C184_price",
    "C184_monotone",
    "C184_decimals",
    "C184_from_price",
    "C184_roundtrip",
    "C184_reserve",
    "C184_reserve_near",
    "C184_injective_refuted"
   ],
   "note": "Binary64 of Flocq, rounding to nearest even. The decimal factor and the end of the range are given as doubles: the library power function is not modelled. tkn0reserve is in C185 and tvl in C186."
  },
  {
   "property": "C185",
   "status": "proved",
   "theorems": [
    "C185_reserve0",
    "C185_end"
   ],
   "note": "Binary64 of Flocq, rounding to nearest even. The decimal factor and the end of the range are given as doubles: the library power function is not modelled. tvl is in C186."
  },
  {
   "property": "C186",
   "status": "proved",
   "theorems": [
    "C186_tvl"
   ],
   "note": "Binary64 of Flocq, rounding to nearest even. The decimal factor and the ends of the range are given as doubles: the library power function is not modelled."
  },
  {
   "property": "C187",
   "status": "proved",
   "theorems": [
    "C187_tvl",
    "C187_full"
   ],
   "note": "Binary64 of Flocq, rounding to nearest even. The choice of the token by name and the error for other tokens are in the model over the reals."
  }
 ]
}