# Formal model of carbon-simulator: design

The model is a shallow embedding in Rocq (Coq 8.16.1) of the Python code in
`/repo`. The code is not executed; every definition in the model cites the file
and lines it was read from. Files live in `rocq/theories`.

## Layout

For each area `X` there are up to four files:

* `XModel.v` - the model, definitions only, each citing file and lines;
* `XSpec.v`  - small independent specification vocabulary used in statements
  (only where plain library notions are not enough);
* `XProofs.v` - lemmas;
* `XProps.v` - only the property theorems, each closed by `exact`, each followed
  by `Print Assumptions`, and by an `Example` showing a concrete non-trivial
  case that meets the hypotheses.

## Numbers

| Python | model | reason |
|---|---|---|
| `int` with `//`, `>>`, checked 128/256-bit arithmetic | `Z` | exact |
| `Decimal`/`float` in rational formulas and in the simulator state machine | `Q` (equality `==`) | exact rational arithmetic; rounding is *not* modelled |
| `Decimal`/`float` in formulas with square roots | `R` of the standard library | exact real arithmetic; rounding is *not* modelled |
| `float` in the curve functions (C172, C173), in encoded orders (C174), as roots in orders of the simulator (C175) and in constant product curves (C180 to C183) and in the Uniswap v3 calculator (C184) | `binary64` of Flocq, rounding to nearest even | as computed; `x**2` is any function with a relative error of at most 2^-52 |
| `Decimal` in the quotes of the fast router (C176) | `R`, rounded to 128 decimal digits after every operation (FLX of Flocq) | exponents unbounded |
| `Decimal` in the encoding and the reference of the benchmark (C177, C178) | `R`, rounded to 100 decimal digits after every operation (FLX of Flocq) | exponents unbounded |

Other rounding of binary floats and of 128-digit decimals, `round(...)`/`frmt`, printing,
logging and pandas/numpy presentation code are outside the model. Python
exceptions are values (`option` or an explicit result type). Division by zero is
an exception in the model wherever it is one in Python. Dicts are association
lists in insertion order. Loops are structural recursion, bounded binary
iteration with early exit, or explicit fuel whose exhaustion is a separate
outcome that is proved not to occur.

## Plan per property

| id | model | method |
|---|---|---|
| C01-C04 | `TradeModel.v`: benchmark/core/trade/impl.py on `Z` with checked arithmetic | rounding inequalities by `nia`/`lia` after naming quotients; statement in terms of the exact rational formula, cross-multiplied |
| C05, C06 | same file: encodeRate/encodeFloat/encodeOrder | bit-length characterisation by `Z.log2`, shifts as division by powers of two |
| C07 | both formulas over `Q` | `field` |
| C08-C11, C59 | `MatchModel.v`: benchmark/core/match/impl.py | induction over the quote list / loop iterations; `matchBest` overfill by a computed witness (`_refuted`) plus the bound under the missing condition |
| C12-C15, C60 | `PairModel.v`: carbon/pair.py on strings and `Q` | case analysis; string lemmas about split on `/` and append |
| C16-C25, C61-C65 | `SimModel.v`: carbon_simulator.py as a state machine; the router is an arbitrary function (oracle), so the results hold for every router | induction over operation lists; failure points explicit |
| C26-C28 | `FastModel.v`: fast_router.py on `Q` (and `Z` for floor division) | induction over sorted quotes |
| C29-C31 | `ExactModel.v`: exact_router_x0y0n.py on `R` | closed form with products over subsets; convexity (tangent) argument for optimality |
| C32, C67, C68 | `ExactModel.v`: exact_base_router.py; for C32 the closed form is an arbitrary function | explicit fuel; measure = number of live orders; for C67 an invariant relating the common price level of successive rounds, then KKT conditions of the clamped split |
| C33, C69, C70 | `AlphaModel.v`: alpha_router.py on `R` (selector, hypothetical amounts, both match functions); the pandas sort is any permutation of the orders | loop invariant: window holds the k largest seen so far; the rest from C67/C68 for the chosen orders |
| C34, C35 | `OrderModel.v`: order.py on `R` | `field`, `sqrt` lemmas; `_refuted` for capacity < 1 |
| C36-C43, C66 | `CurveModel.v`: carbon_order_ui.py on `R` | `field`, `nra`; state machine for two linked curves |
| C44-C48, C72 | `HelperModel.v`: helpers/floatint.py, version.py, soltest.py, tools/simplepair.py, tokenscale.py, integer part of univ3calc.py on `Z` and strings | log2/shift lemmas, string induction, case analysis |
| C71, C73 | `Univ3Model.v`: tools/univ3calc.py on `R` | `powerRZ`/`sqrt` lemmas, `field` |
| C49-C51, C74 | `CpcModel.v`: `ConstantProductCurve` and `CPCInverter` of tools/cpc.py and `as_cpc` of carbon_order_ui.py on `R` | `field`, `sqrt` lemmas, order properties of the range ends |
| C52-C54, C75-C79 | `GraphModel.v`: tools/arbgraphs.py on `R`; graphs with node indices, edges as positions, failing calls return the changed graph; path search is an arbitrary function; printing, plotting and random identifiers are not modelled | invariant over call histories, induction over edges, paths and histories |
| C55, C56, C80, C81 | `StrategyModel.v`: helpers/strategym.py on `R`; numbers or sequences as parameters; data frames and descriptions not modelled | case analysis, `nra`; C80 linked to `CurveModel.v` |
| C82-C90 | `ContainerModel.v`: CPCContainer and AF of tools/cpc.py; curves live in a heap and containers hold references, since adding a curve sets its id in place; programs over several containers; plots not modelled, tables in `TabModel.v`, token scales in `MetaModel.v` | invariant (dictionaries = rebuild from the list) over all programs; sums over lists, Cauchy inequality |
| C91-C100 | `OptModel.v`: tools/optimizer.py on `R`; the convex problem as its feasible points and objective, the linear solver and the order of Python sets are arbitrary functions; data frames, scaled variables and the solvers themselves not modelled | mean value and intermediate value theorems for the numerical helpers; convex duality (sum of the pools' best trades) for the optimizers; induction over Newton steps |
| C101-C107 | `RunModel.v`: helpers/simulation.py `run_sim` on `R`, with the orders of carbon_simulator.py as curves of `CurveModel.v`; plots not modelled | an explicit description of one trade to a price (`deal`), an invariant of the two linked curves of a strategy (`fits`), induction over the path |
| C108-C114 | `SdkModel.v`: carbon/sdk on `Q` and `Z`, strings in ASCII; the server is a record of functions of the two addresses, http and json not modelled | the bounds of `TradeModel.v` for C108; induction over strings, digits and lists; case analysis |
| C115-C118 | `AnalyticsModel.v`: simulators/sim_analytics.py on `Q` with infinities and NaN; pandas Series as lists | sums over lists; a trade depends only on the orders (congruence over the model of the simulator) |
| C119-C122 | `UiModel.v`: calc_liquidity_approx of sim_analytics.py; from_SDK, roundsd, yzABS of carbon_order_ui.py, on `R` | additivity of overlaps; `powerRZ`, logarithm and integer part lemmas |
| C123-C127 | `PathModel.v`: helpers/{pathinterpolation,pathgenerator,pdread}.py on `R`; random numbers are an argument, frames are lists of rows sorted by time | induction over paths; variance is zero iff all entries agree |
| C128-C130 | `CcModel.v`: helpers/cryptocompare.py; strings, the cache as a map, the server as an arbitrary function from requests to answers | induction over strings; case analysis of the flags |
| C131-C133 | `WidgetModel.v`: helpers/widgets.py over a small model of the ipywidgets used | invariants of folds over user actions |
| C134-C136 | `FileModel.v`: helpers/{helpers,fls,stdimports}.py; file system as a map, gzip and json as parameters | insertion sort, uniqueness of sorted permutations, string lemmas |
| C137 | `LoadModel.v`: base_router.py make_orders_from_file, over `OrderModel.v` | induction over the records |
| C138 | `TradeModel.v` as for C01-C04, with rescaling | error of each rounding step, the rescaling factor bounded by the overflow, in Z; then divided out in Q |
| C139-C143 | `NetModel.v`: tools/arbgraphs.py as a network on `R`: as_graph, A, L, degree, is_weakly_connected, shortest_path, price, pricetable, run_arbitrage_cycles, edgedf; the shortest-path search is a parameter of which only the contract is assumed (and shown to be met by one search) | walks and minimal walks, telescoping products, AM-HM inequality for mirrored prices, quadratic form of the Laplacian, growth of the reached set, uniqueness of sorted lists |
| C144-C145 | `TiModel.v`: result tables, formats of trade instructions and scaled variables of tools/optimizer.py; a data frame is its columns and labelled rows of cells | insertion-ordered keys; the instructions and the non-zero trades are permutations of each other, so net amounts agree |
| C146-C148 | `ImpModel.v`: decimals and from_slashpair of pair.py; add_fromsdk with the order classes on `R`; curves_by_pair_bidask, set_linked, bn2intd, _from_SDK0 of carbon_order_ui.py | string lemmas (strip, upper, split); a curve is rebuilt from its own prices: square roots of squares |
| C149-C151 | `TabModel.v`: pairs_analysis of tools/cpc.py on the containers of `ContainerModel.v`; pandas' pivot_table, groupby, reindex and fillna as functions on labelled tables; formatting left out | a selection is a filter of the curves; groups as filters; permutations and sortedness |
| C152-C155 | `MetaModel.v`: token scales as shared objects in programs over containers, the problem of nofees_optimizer with the scale of each curve, the recorded fields of curve objects (id, fee, description, constructor, parameters), dicts and data frames of curves; formatted numbers are a parameter | invariant over programs, last builder by induction on the rest of the program; lookups in association lists; round trips by computation |
| C156-C157 | `BenchModel.v`: the benchmark's tests of quotes and matchings: square roots of spec.py on `R`, assertAlmostEqual, the assertions of test_match.py | the stored order is a curve with slightly lower square roots; monotonicity and scaling of the curve in its square roots, C01, C02, C06, C138 for the integers; matchings by induction over the sorted book; counterexamples by `vm_compute` |
| C158-C159 | `ArbModel.v`: from_r, from_cc and the parameters of margp_optimizer (`sfc`, `pstart`, `result`) on top of OptModel, GraphModel, ContainerModel | signs of marginal trades (C93) make every row a positive edge or a no-op; induction over the rows for edges, nodes and nets; price weighted sums for the gain; estimates from C87 |
| C160 | no new model: SimModel, FastModel, ExactModel and AlphaModel together (`GainSpec.v` has the weights and the pricing assumption) | an executed route moves at most phigh per unit between two linked orders, so the weighted sum cannot fall; invariants (keys, links, bounds, proper prices) by induction over operations; closed forms of the curves for the routers' prices |
| C161 | no new model: ExactModel and FastModel (`SplitSpec.v` settles actions on a book) | the level at which the whole request clears is reached in parts: clamped fills of two levels compose, payments along one curve add up; induction over the parts; optimality (C67) and worse prices on lower balances for the later parts; a computed counterexample for the fast router |
| C162 | no new model: ExactModel | the fills are determined by the level of the marginal price, so the total of either side determines them; fills are monotone in the level; a fraction of a fill costs at most that fraction, then the optimality bound of C67 |
| C163 | `LegacyModel.v`: ranking, windows and the call of the exact router of alpha_router_orig.py | windows of a list as intervals of positions, the first one found; then the lemmas of C69 and C70 about a chosen set of orders |
| C164 | `EdgeModel.v`: filter_edges by names, on GraphModel | the result as a filter of the edge list with a characterised predicate; disjoint filters for the two directions |
| C165 | `StartModel.v`: StartConditions of helpers/simulation.py on `R` | closed forms of the amounts; the path as a map over positions; the run by C101 |
| C166 | `ChartModel.v`: chart data and words of OrderBook, on AnalyticsModel | vectors position by position, with the lemmas of C116 |
| C167 | AlphaModel.v and ExactModel.v of C33, C67-C70; vocabulary in `ThreshSpec.v` | a list of actions is a routing, so the optimum over fewer orders is compared with the optimum over more; the ranking keys are payments of the curve; loop invariant of the selector for one order; two- and three-order books for the refutations |
| C168 | `SvModel.v`: values as trees for what only reads, a heap of objects for + and += | comparisons reduce to the number at the end; objects with the same end of their chain change together |
| C169 | `AggrModel.v` on top of `CcModel.v`; vocabulary in `AggrSpec.v` | cells of joined frames are looked up by time; frames over the same index are joined without change; dict and set as duplicate-free lists |
| C170 | `ReqModel.v` on top of `SdkModel.v`; how answers are to be read in `ReqSpec.v` | relations between answers and outcomes, case analysis on the answer; a run records the requests sent |
| C171 | `ReqModel.v` on top of `SdkModel.v`; the rule for overrides in `ReqSpec.v` | lookup in association lists; `DecimalString` for the texts of ints |
| C172 | `FpModel.v`: the functions of `CurveModel.v` on `binary64` of Flocq; `FpSpec.v`: same outcome up to a relative error | powers of 1/(1-2^-53) count the roundings; every intermediate result is shown to be zero or in the normal range; differences of floats lie on a grid; differences of rounded numbers lose a factor k |
| C173 | as for C172 | as for C172; the rounded root is monotone, so S is not negative |
| C174 | `FpSdkModel.v`: the functions of `SdkModel.v` on `binary64` of Flocq | the square root is correctly rounded, the product with 2^48 exact, so the encoded integer is that of the square of the rounded root; decoded mantissas have at most 53 bits |
| C175 | `FpOrderModel.v`: the parameters of an order on `binary64` of Flocq, prices on `Q`; the quotes of `FastModel.v` | the curve is a mean of B and B+S, so its relative error is that of the roots; the amount bought is compared through its cost |
| C176 | `FpDecModel.v`: the quotes of `FastModel.v` on `R` with a rounding to 128 decimal digits (FLX of Flocq) after every operation | relative error of a rounding; the factors of the roundings are multiplied; the difference in the denominator loses at most the ratio of the roots; C175 for the roots |
| C177 | `FpRateModel.v`: `encodeRate` and `encodeOrder` on `R` with roundings to 100 decimal digits (FLX of Flocq) | the square of the computed product times 10^d is within 1 of an integer, so that it is not on the other side of the square of an integer; if sqrt(rate) * 2^48 is an integer then the root has at most 35 digits and nothing is rounded |
| C178 | `FpSpecModel.v`: `execute` of spec.py on `R` with roundings to 100 decimal digits (FLX of Flocq) | every intermediate result is within n units of 10^-99 of a scale; products add the units, sums add the scales; the scale of the denominator is at most 3 (by target 3 sqrt(m/l)) times the denominator |
| C179 | `RawModel.v`: EncodedStrategy with the dict as a state | decimal texts determine their numbers; induction over the entries of a dict |
| C180 | `FpCpcModel.v`: ConstantProductCurve over binary64 | error bounds of Flocq composed along each formula; rounding is monotone; the constant is copied |
| C181 | `FpCpc2Model.v`: from_univ2, from_pkpp, from_univ3, from_carbon, the ends of the ranges and xyfromp_f over binary64 | error bounds composed along each formula; rounding is monotone; differences of doubles lie on a grid |
| C182 | `FpCpc3Model.v`: from_carbon with pa and pb over binary64 | error bounds composed along each formula; rounding is monotone; the curve is reduced to that of C181 |
| C183 | `FpCpc4Model.v`: yfromx_f, xfromy_f, dyfromdx_f, dxfromdy_f, dx_max, dy_max, dxdyfromp_f over binary64 | both ends are computed by the same operations as the trades; rounding is monotone; error bounds composed along each formula |
| C184 | `FpUniModel.v`: _price_f, both prices, sp96_from_price and tkn1reserve of Univ3Calculator over binary64 | correct rounding of integers; error bounds composed along each formula; rounding is monotone |
| C185 | `FpUni2Model.v`: tkn0reserve of Univ3Calculator over binary64 | error bounds composed along the formula; square root and rounding are monotone, and differences of doubles of the stated size do not underflow |
| C186 | `FpUni3Model.v`: tvl of Univ3Calculator over binary64 | error bounds of both reserves composed along the formula |
| C187 | `FpCpc5Model.v`: tvl of ConstantProductCurve over binary64 | error bounds composed along the formula; all terms are nonnegative, so nothing cancels |
| C57, C58 | `ParamsModel.v`, `SharedModel.v` | induction over histories |

No property was judged inexpressible. Statements about `Q`/`R` are about the
formulas, not about IEEE or Decimal rounding. C172 to C178 and C180 to C184 bound the distance
between the formulas of a curve, of an encoded order or of a quote of the fast router
and what is computed for them in IEEE doubles and Decimals.

## What is modelled

| source | modelled | not modelled |
|---|---|---|
| benchmark/core/trade/{impl,spec}.py | all functions (`TradeModel.v`), the encoding and `spec.execute` also with rounded Decimals (`FpRateModel.v`, `FpSpecModel.v`) | Decimal precision in `decodeOrder` |
| benchmark/core/match/impl.py | all functions (`MatchModel.v`); `matchFast` also overwrites the rates of its quotes, which nothing reads afterwards | - |
| benchmark/core/__init__.py, test_trade.py, test_match.py | assertAlmostEqual, the assertions of both tests (`BenchModel.v`) | reading and writing of files, printing (except that an empty matching raises) |
| carbon/pair.py | construction, tokens, has/other, price and amount conversion (`PairModel.v`), decimals, `from_slashpair` (`ImpModel.v`) | display strings |
| carbon/simulators/carbon_simulator.py | orders, strategies, updates, deletion, trades, limits, execution (`SimModel.v`), `add_fromsdk` (`ImpModel.v`); router arbitrary | data frames, state dump/restore text, printing, rounding to `decimals` |
| carbon/routers/fast_router.py | all (`FastModel.v`) | `frmt` rounding |
| carbon/routers/exact_router_x0y0n.py, exact_base_router.py | all (`ExactModel.v`) | `frmt`, logging |
| carbon/routers/alpha_router.py | selection and both match functions (`AlphaModel.v`) | pandas layout |
| carbon/routers/base_router.py | data classes, liquidity test, reading orders from files (`LoadModel.v`) | logging, malformed numbers |
| carbon/routers/alpha_router_orig.py (superseded, not imported) | 19-295: both match functions (LegacyModel.v) | use_floor_division, thresholds of zero |
| carbon/order.py | construction and derived properties (`OrderModel.v`) | deprecated alias, repr |
| carbon/carbon_order_ui.py | constructors, curve functions, trading, liquidity approximation, `as_cpc`, `from_SDK`, `roundsd`, `yzABS` (`CurveModel.v`, `CpcModel.v`, `UiModel.v`), `curves_by_pair_bidask`, `_from_SDK0` (`ImpModel.v`) | repr |
| carbon/helpers/{floatint,version,soltest,sharedvar,strategym}.py | `HelperModel.v`, `SharedModel.v`, `SvModel.v`, `StrategyModel.v` | printing, data frames |
| carbon/helpers/{pathinterpolation,pathgenerator,pdread}.py | interpolation, volatility, generated paths, reading of windows (`PathModel.v`) | the random number generator, csv parsing, data frames |
| carbon/helpers/cryptocompare.py | construction, coins and pairs, cache, queries, tables of histories (`CcModel.v`), aggregated tables (`AggrModel.v`) | http, json, pickles |
| carbon/helpers/widgets.py | the three managers (`WidgetModel.v`) | display, layout, the ipywidgets library beyond what is stated there |
| carbon/helpers/{helpers,fls}.py, stdimports.py | listdir, fsave, fload, iseq, raises (`FileModel.v`) | text encodings, printing |
| carbon/helpers/simulation.py | `run_sim` (`RunModel.v`), `StartConditions` (`StartModel.v`) | plots, loading of files |
| carbon/simulators/sim_analytics.py | vectors, simulated trades, order books (`AnalyticsModel.v`), their chart data (`ChartModel.v`), liquidity charts (`UiModel.v`) | plots |
| carbon/sdk/{carbonsdk,carbonsdk0,sdktoken,sdkbase}.py | EncodedOrder, tokens and containers, conversions, markets, trade and strategy requests (`SdkModel.v`); requests sent and answers read (`ReqModel.v`), raw data of strategies (`RawModel.v`) | the server itself, the text of json, data classes without behaviour |
| carbon/sdk/carbonsdk0.py | `reformatStrategy` and, as an arbitrary server, the queries | wrappers of server functions |
| carbon/tools/{simplepair,tokenscale,univ3calc,params}.py | `HelperModel.v`, `Univ3Model.v`, `FpUniModel.v`, `ParamsModel.v` | address tables, deprecated constants |
| carbon/tools/cpc.py | ConstantProductCurve, CPCInverter, Pair, CPCContainer, AF (`CpcModel.v`, `HelperModel.v`, `ContainerModel.v`), in doubles `FpCpcModel.v`, `FpCpc2Model.v`, `FpCpc3Model.v` and `FpCpc4Model.v`, pairs_analysis (`TabModel.v`), token scales, metadata, dicts (`MetaModel.v`) | plots, formatting of data frames, parameters as JSON text, SimplePair duplicates |
| carbon/tools/arbgraphs.py | amounts, nodes, edges, paths, cycles, the graph and its transactions (`GraphModel.v`); matrices, degrees, connectivity, prices, tables (`NetModel.v`) | networkx algorithms other than by their results, directed Laplacian, eigenvalues, plots |
| carbon/tools/optimizer.py | numerical helpers, constraints, the three optimizers, results, trade instructions (`OptModel.v`); result tables, `ScaledVariable` (`TiModel.v`) | cvxpy, numpy linear algebra, data types and number formats of data frames, pickles |

## Trusted base

* Coq's kernel (8.16.1) and the standard library.
* Faithfulness of the reading of `/repo` into the model (cited definition by definition).
* What `Print Assumptions` lists (see the end of this file, updated per milestone).
  `Z`/`Q`/string developments are expected to be closed under the global context;
  `R` developments use the standard library's axioms of the classical reals.

## Print Assumptions per theorem

Generated from the output of the build.

* Closed under the global context: C01_by_source_negative, C01_by_source_never_overpays, C02_by_target_never_undercharges, C03_by_source_range, C03_by_target_range, C04_by_source_exact_floor, C04_by_source_monotone, C04_by_target_exact_ceil, C04_no_round_trip_profit, C04_quoted_price_is_enough, C05_format, C05_idempotent, C05_monotone, C05_round_down, C06_order_fails_iff, C06_order_relations, C06_rate_bounds, C06_rate_monotone, C06_rate_representable, C07_source, C07_source_constant, C07_target, C07_target_constant, C08_fast_by_source, C08_fast_by_target, C09_clamp, C107_none, C108_benchmark, C108_descr, C108_descr_refuted, C108_encode, C108_negative, C108_swapped, C109_both, C109_capacity_refuted, C109_cases, C109_full, C109_marg, C109_yzAB_float, C109_yzAB_int, C109_yzAB_refuted, C109_yzAB_token, C10_bound_by_source, C10_bound_by_target, C10_overfill_refuted, C110_accept, C110_byaddr, C110_byticker, C110_consistent_refuted, C110_containsall, C110_hash, C110_name, C110_restore, C110_token, C110_unique, C111_bignumber, C111_call, C111_camel, C111_camel_refuted, C111_hex, C111_join, C111_join_empty, C111_join_refuted, C111_other, C111_snake, C111_wei, C111_wei_down, C111_wei_none, C112_depth, C112_depths, C112_flag_refuted, C112_foreign, C112_liquidity, C112_market, C112_pairs, C112_range, C112_range_zero, C112_values, C113_compose, C113_create, C113_global, C113_invalid, C113_pair, C113_pair_refuted, C113_prepare, C114_user, C115_aligned_refuted, C115_book, C115_errors, C115_grid, C115_increasing, C115_increasing_refuted, C116_area, C116_flat, C116_marginal, C116_positive, C116_prices, C116_sumproduct, C116_total, C117_arguments, C117_buys, C117_independent, C117_negative, C117_sells, C118_constants, C118_default_pair, C118_price, C11_best_by_source, C11_best_by_target, C11_best_empty_book, C127_tokens, C128_accepts, C128_coinlist, C128_coinlist_pt, C128_create, C128_empty_refuted, C128_join, C128_number, C128_once, C128_pair, C128_unjoin, C129_hit, C129_miss, C129_named, C129_never_written, C129_readonfail_refuted, C129_silent, C129_updateonfail_refuted, C129_write, C12_convert, C12_convert_price, C12_convert_price_involution, C12_convert_round_trip, C12_price_consistent, C130_failure_refuted, C130_frequency, C130_history, C130_ignored, C130_joined, C130_key, C130_limit_refuted, C130_method, C130_query, C130_tables, C131_checked, C131_dict, C131_history, C131_last, C131_new, C131_objects, C131_twice_refuted, C131_wrong, C132_attribute, C132_dict, C132_errors, C132_inside, C132_move, C132_new, C132_none, C132_ranges, C132_ranges_refuted, C132_scalar_refuted, C132_start, C133_always, C133_assign, C133_errors, C133_index, C133_index_refuted, C133_labels_refuted, C133_value, C134_all, C134_case, C134_empty, C134_extension, C134_file_refuted, C134_order, C134_sorted, C134_twice_refuted, C135_bytes, C135_compressed, C135_compressed_refuted, C135_errors, C135_json, C135_newlines, C135_path, C135_text, C135_text_refuted, C135_type, C135_wrapper, C136_all_refuted, C136_numbers, C136_outcome, C136_raises, C136_raises_refuted, C136_rest, C136_symmetric_refuted, C137_cases, C138_by_source_near, C138_by_source_overflow, C138_by_target_near, C138_by_target_overflow, C138_constant_loss_refuted, C138_monotone_refuted, C138_round_trip, C139_search, C13_buy_is_sell_other, C13_exclusive, C13_limit_met, C13_unknown_token, C141_adjacency, C141_refused, C143_reformat, C146_convention, C146_copy, C146_decimals_refuted, C146_difference, C146_has, C146_never, C146_refused, C146_same_refuted, C146_set, C146_slashpair, C146_table, C148_complete, C148_groups, C148_label, C148_link, C148_never, C148_numbers, C148_type, C148_value, C14_accepted_iff_one_slash, C14_create, C14_from_slash, C14_idempotent, C14_other_involution, C14_other_none, C14_reverse, C154_lookup, C154_paths, C157_best_actions, C157_best_pays_less_refuted, C157_fast_by_source, C157_fast_by_target, C157_fixed_prices, C157_fixed_test, C157_nothing_refuted, C157_overfill_refuted, C157_single_source, C157_single_target, C157_single_test, C158_simple_empty, C15_iso_ambiguous, C15_iso_exact, C15_slash_exact, C15_wrong_book_refuted, C160_book, C160_crossing_refuted, C160_fast, C160_fast_prices, C160_gap, C160_no_free_lunch, C160_strategy, C161_fast_refuted, C164_at, C164_directed, C164_one_sided, C164_pair, C164_refused, C166_amounts, C166_axes_refuted, C166_frame, C166_orderbook, C166_prices, C166_words, C168_compare, C168_copy_nested, C168_copy_plain, C168_index, C168_index_exact_refuted, C168_inner, C168_unary, C169_answers, C169_missing_refuted, C169_refused, C169_tables, C16_add_strategy, C16_ids_distinct, C16_ids_not_reused, C16_links, C16_terms_persist, C170_addr, C170_addr_lost, C170_async, C170_balance, C170_checked, C170_depths, C170_hasliquidity, C170_lookup, C170_lookup_addr, C170_method, C170_numbers, C170_pairs, C170_rate, C170_rate_refuted, C170_result, C170_result_empty, C170_server, C170_sync, C170_syncdefault_refuted, C170_url_refuted, C171_actions, C171_create, C171_data, C171_gas, C171_marginal, C171_marginal_refuted, C171_record, C171_sign, C171_sign_refuted, C171_trade, C171_type, C171_update, C179_descr, C179_document, C179_from_sdk, C179_shared, C179_twice, C17_add_order, C17_add_outcomes, C17_atomic_refuted, C17_pair_argument, C17_unknown_token, C18_delete_both_refuted, C18_delete_order, C19_buys_limit_price, C19_fast_router, C19_preview, C19_sells_limit_price, C20_balances, C20_strategy_totals, C20_totals, C21_buys_touch, C21_sells_touch, C22_balance_bounds, C22_capacity_monotone, C22_fast_router, C23_append_only, C23_count, C23_other_operations, C23_records, C23_unique, C24_collision_noop_refuted, C24_dangling_link, C24_failed_trade_noop, C24_fast_router, C24_noop_refuted, C25_negative_buy, C25_negative_sell, C25_positions_ignored, C26_any_orders, C26_by_source, C26_by_target, C26_zero_request_raises, C27_by_source_order, C27_by_target_order, C27_comparator, C27_total_preorder, C28_floor_round_trip, C28_floor_source, C28_floor_target, C28_source_then_target, C28_target_then_source, C33_empty, C44_best, C44_domain, C44_error, C44_exact, C44_exponent_fits_refuted, C44_idempotent, C44_independent, C44_monotone, C44_relative, C44_smallest, C44_width, C45_lexicographic, C45_order, C45_outcome, C45_parse, C45_prefix, C45_returns_true_refuted, C46_clamp_refuted, C46_default, C46_err, C46_log, C46_warn, C47_bracket, C47_fees, C47_partition, C48_alphabetical, C48_classes, C48_classes_refuted, C48_numeraire, C48_one_orientation, C48_parse, C48_prices, C48_ranking, C48_same_primary, C48_zero_price, C52_steps, C54_empty, C54_filter, C54_items, C54_order, C54_pairs, C54_pairs_once, C54_rotation_refuted, C54_start_value, C54_subcycle, C57_add, C57_add_atomic_refuted, C57_assign, C57_attribute, C57_construct, C57_construct_after_read, C57_defaults_refuted, C57_first_default_dropped, C57_lookup, C57_read_matters, C57_replicate_refuted, C57_second_default, C57_set, C57_write_once, C58_assign_breaks, C58_inplace, C58_linked_forever, C58_reference, C58_setval, C58_value_nested, C58_value_plain, C58_value_plain_refuted, C59_ranking_by_source, C59_ranking_by_target, C60_other_lengths_rejected, C60_round_trip_refuted, C60_split_by_base, C60_split_by_quote, C60_split_in_the_middle, C61_buys_limit_amt, C61_sells_limit_amt, C62_fast_sells_limit_price, C62_limit_respected_refuted, C63_dangling, C63_liquidity, C64_excluded, C64_fresh_ids_refuted, C64_single_order, C65_equalize, C65_limit_is_marginal_rate, C65_monotone, C65_own_limit, C72_scale, C81_arguments, C81_nan_filter, C81_positional, C81_table, C95_all_tokens, C95_make, C97_tokens, C98_start.

* Axioms `ClassicalDedekindReals.sig_forall_dec`: C159_tokens, C79_history, C79_sum, C85_positions, C85_table, C85_tokens, C86_all, C86_any, C86_default, C86_errors, C95_lookup.

* Axioms `ClassicalDedekindReals.sig_forall_dec`, `FunctionalExtensionality.functional_extensionality_dep`: C100_objective, C126_new, C126_times, C127_errors, C127_pathtime, C127_window, C139_direct, C139_fair, C139_price, C139_refused, C139_same, C139_units, C140_average, C140_connected, C140_consistent_refuted, C140_missing, C140_pools, C140_roundtrip, C140_selection, C140_table, C141_connected, C141_degree, C141_handshake, C141_kernel, C141_laplacian, C141_quadratic, C142_amounts, C142_connections, C142_paste_refuted, C142_pools, C142_prices, C142_rows, C143_lazy, C143_tables, C143_tables_refuted, C143_tokens, C143_tuple, C144_aggregate, C144_columns_refuted, C144_formats, C144_pretty, C144_raw, C145_nofees, C145_nofees_none, C145_nofees_refused, C145_scaled, C145_table, C152_added_refuted, C152_container, C152_container_refuted, C152_last, C152_new, C152_object, C152_reading_refuted, C152_same, C152_trivial, C152_value, C153_fresh, C153_objective, C154_amounts_refuted, C154_history, C154_id_refuted, C154_trade, C154_trades, C155_dict, C155_dicts, C155_frame, C155_frame_refuted, C155_ids_refuted, C155_minimal, C155_refused, C156_accepts_iff, C156_accepts_negative, C156_accepts_zero, C158_container, C158_moving, C164_empty, C165_path, C165_refused, C165_strategy, C182_widen, C28_source_is_curve, C28_target_is_curve, C31_equal_prices_optimal, C31_equal_prices_optimal_source, C31_payment, C32_bounded, C32_terminates, C33_selector, C33_zero, C36_differences, C36_dx_then_dy, C36_dy_then_dx, C36_path_independent, C36_x_then_y, C36_y_then_x, C37_derivative, C37_effective, C37_ends, C37_marginal, C37_monotone, C38_regions, C39_xint, C40_buyx, C40_dust, C40_negative_sale, C40_overshoot_refuted, C40_range, C40_rejected, C40_sale, C41_alone_unchanged, C41_expand_refuted, C41_own_curve_unchanged, C41_preview_moves_linked, C43_bracket, C43_negative_bound, C43_never_with_zero_eps, C43_rejects, C43_zero_bound, C49_accepted, C49_both_ways, C49_dx_max, C49_dy_max, C49_no_trade, C49_other_side, C49_other_side_refuted, C49_paid_side, C49_quote_dx, C49_quote_dy, C49_round_trip, C49_split, C49_trade_dx, C49_trade_dy, C49_tvl, C50_inrange, C50_inverse, C50_univ2, C52_capacity, C52_capacity_refuted, C52_failures, C52_per_step, C52_product, C52_result, C53_atomic_refuted, C53_failure, C53_forms, C53_ledger, C53_success, C55_domain, C55_mgw, C55_negative_gap_refuted, C55_refused, C55_rescale, C55_rescale_composes, C55_rescale_once, C55_single, C55_tvl, C56_not_validated, C56_seeded_refuted, C56_seeding, C56_tvl_not_seeded, C71_bounds, C71_price_in_range, C71_reciprocal, C74_execute, C74_mirror, C74_price_bounds, C74_price_bounds_refuted, C74_quotes, C75_add_edge, C75_add_edge_refused, C75_appends, C75_connection, C75_invariant, C75_pools, C75_trade, C75_trades, C75_unique, C75_unique_refuted, C76_add, C76_consolidated, C76_duplicate_closed, C76_plain, C76_reverse, C76_scale, C76_sum, C77_forms, C77_limits, C77_pro_rata, C78_missing, C78_no_arbitrage, C78_no_path, C78_price, C78_product, C79_amounts, C79_capacity, C79_node, C79_numbers, C79_order, C79_reflected, C79_reset, C79_sign, C79_statistics, C80_points, C80_ranges, C81_baseline, C81_difference, C81_same, C82_append, C82_bycid, C82_curveix, C82_found, C83_numbered, C83_unique_refuted, C84_price, C84_value, C85_bycids, C85_bypair, C85_bypair_twice, C85_bypairs, C85_bytkn, C85_copy, C85_exclude, C85_select, C87_active, C89_empty, C89_other, C89_self, C90_equal, C90_herfindahl, C90_one, C90_range, C90_scale, C91_left_end, C91_raises, C91_root_refuted, C91_short, C91_terminates, C92_descent, C92_descent_refuted, C92_jacobian, C92_line, C92_parts, C92_quadratic, C95_arb, C95_is_arbitrage, C96_make, C96_new, C96_prices, C96_same_token, C96_signs, C99_adjust_none.

* Axioms `ClassicalDedekindReals.sig_forall_dec`, `ClassicalDedekindReals.sig_not_dec`, `FunctionalExtensionality.functional_extensionality_dep`: C100_arbitrage, C100_feasible, C100_string_argument, C100_string_argument_refuted, C101_result, C102_path, C102_step, C103_direction, C103_gap, C103_hodl, C103_idle, C104_books, C104_portfolio, C105_cleared, C105_enter, C105_repeat, C105_sold_out, C106_falling, C106_rising, C107_capacity, C107_flat, C107_late, C107_no_price, C107_pairs, C107_ready_refuted, C107_refused, C107_zero, C107_zero_refuted, C119_cells, C119_cover, C119_flat, C119_missing, C119_total, C123_bridge, C123_ends, C123_errors, C123_length_refuted, C123_positive_refuted, C126_errors, C126_path, C126_positive, C137_csv, C137_csv_refuted, C137_faults, C137_floor_refuted, C137_json, C137_prefix, C137_unknown, C144_idle, C144_settles, C145_simple, C145_simple_empty, C145_simple_results, C145_simple_table, C145_total_refuted, C149_counts, C149_list, C149_refused, C149_symmetric, C149_symmetric_refuted, C149_unknown, C150_plaggr, C150_pricelist, C150_prices, C150_std, C150_std_refuted, C150_stdpc, C151_tokens, C151_tokens_refuted, C151_volumes, C153_balance_refuted, C153_common, C153_feasible, C154_carbon, C154_name_refuted, C154_params, C154_possible, C154_recorded, C154_univ3, C155_made, C156_past_accepted, C156_past_refuted, C156_source_accepted, C156_source_lower, C156_source_upper, C156_target_accepted, C156_target_lower, C156_target_upper, C158_gain, C158_instructions, C158_margp, C158_none, C158_simple, C160_alpha, C160_exact, C161_balance, C161_later, C161_parts, C161_two, C162_average, C162_inverse, C162_monotone, C163_all, C163_few_orders, C163_no_threshold, C163_served_if_possible_refuted, C163_source, C163_target, C165_ranges_refuted, C165_run, C167_exact_source, C167_exact_target, C167_first_source, C167_first_target, C167_more_orders_refuted, C167_single_source, C167_single_target_refuted, C29_target_split, C30_source_split, C34_capacity, C34_has_curve, C34_marginal, C34_marginal_at_low, C34_marginal_below, C35_forms_agree, C35_forms_disagree, C35_view_sane, C38_beyond_end, C38_flat_raises, C38_lands, C38_other_side, C38_repeat, C38_yfromp_inverts, C39_centre, C39_invariant, C39_kappa_bar, C39_shape, C41_tradeto_capacity, C42_additive, C42_covering, C42_own_token, C42_range, C42_share, C50_clamped, C50_constructors, C50_current, C50_pkpp, C50_trade_to_price, C50_unbounded, C50_univ3, C50_univ3_rejects, C51_as_cpc, C51_from_prices, C51_pool, C51_quotes, C51_quotes_dy, C51_range, C51_trade, C66_from_Qxy, C66_from_Qxy_inverted, C66_from_prices, C66_from_prices_range, C67_match_optimal_source, C67_match_optimal_target, C68_drained_source, C68_drained_target, C68_rejected_source, C68_rejected_target, C69_default_threshold, C69_target_rejected, C69_target_served, C69_target_supported, C69_zero_threshold, C70_no_threshold, C70_served_if_possible_refuted, C70_source_served, C70_source_short, C70_source_supported, C70_worth, C70_worth_below_capacity, C71_sp96_round_trip, C73_correct_iff, C73_reserves, C73_reserves_refuted, C73_tvl, C74_current, C74_prices, C80_u3, C80_u3_closed, C80_u3_refused, C81_dispatch, C81_quiet, C87_between, C87_reciprocal_refuted, C87_same, C87_table, C87_value, C88_as_cpc, C88_no_estimate, C88_used_up, C91_root, C93_direction, C93_gain, C93_monotone, C93_optimal, C94_globalmax, C94_rejects, C94_same_price, C94_target, C94_terminates, C94_tiny_prices, C94_total, C94_value, C97_arbitrage, C97_duality, C97_length, C97_near, C97_totals, C97_unique, C99_minimal, C99_optimal, C99_prices, C99_values.

* Axioms `ClassicalDedekindReals.sig_forall_dec`, `ClassicalDedekindReals.sig_not_dec`, `Classical_Prop.classic`, `FunctionalExtensionality.functional_extensionality_dep`: C120_curves, C120_errors, C120_ticker_refuted, C121_digits_refuted, C121_kept, C121_nearest, C121_tie, C121_twice, C122_decimals, C122_parameters, C122_price, C124_between, C124_coarse, C124_fine, C124_kept, C124_options, C124_original_refuted, C124_two_points, C125_errors, C125_value, C125_volatility, C147_added, C147_kept, C147_pairs_refuted, C147_refused, C159_answer, C159_checks, C159_dict, C159_estimates, C159_frame, C159_minimal, C159_name, C159_shows, C172_dxfromdy, C172_dxfromdy_refuted, C172_dyfromdx, C172_p_marg, C172_pa, C172_pb, C172_xfromy, C172_xint, C173_exact_refuted, C173_from_prices, C174_below_refuted, C174_decode, C174_encode, C174_negative, C174_p_end, C174_p_marg, C174_p_start, C174_range, C175_negative, C175_params, C175_source, C175_target, C175_width_refuted, C176_decimal, C176_source, C176_target, C177_long_refuted, C177_negative, C177_order, C177_rate, C177_same, C178_empty, C178_negative, C178_source, C178_target, C180_act_refuted, C180_bounds, C180_dxfromdy, C180_dyfromdx, C180_execute, C180_execute_y, C180_from_kx, C180_from_ky, C180_from_pk, C180_from_px, C180_from_py, C180_from_xy, C180_no_drift, C180_overpays_refuted, C180_relative_refuted, C180_zero_refuted, C181_bounded, C181_carbon, C181_carbon_refuted, C181_carbon_zero, C181_high_end, C181_low_end, C181_pkpp, C181_top_price, C181_univ2_kx, C181_univ2_ky, C181_univ2_refuted, C181_univ2_xy, C181_univ3, C181_xyfromp, C182_apart, C182_equal, C182_inverse, C182_order_refuted, C182_prices, C182_raise, C182_read, C182_refused, C182_same, C183_dx, C183_dx_max, C183_dx_max_refuted, C183_dxdyfromp, C183_dy, C183_dy_max, C183_full, C184_decimals, C184_from_price, C184_injective_refuted, C184_monotone, C184_price, C184_reserve, C184_reserve_near, C184_roundtrip, C185_end, C185_reserve0, C186_tvl, C187_full, C187_tvl, C50_univ3_fee, C50_univ3_reserves, C71_k, C92_curvature, C92_slope, C98_arbitrage_refuted, C98_one_round, C98_outcome, C98_rejects, C99_reports.
