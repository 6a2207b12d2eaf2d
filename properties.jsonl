{"id": "C01", "title": "Integer quote by source amount never overpays", "statement": "For every integer source amount and every encoded order, the target amount returned by tradeBySourceAmount is never larger than the amount the exact (real-number) Carbon curve x(Ay+Bz)^2/(Ax(Ay+Bz)+z^2) would pay out; rounding, 256-bit rescaling and the overflow fall-back always go against the trader.", "quantifier": "all integer source amounts (including negative and huge), all orders (y,z,A,B) with non-negative integer fields", "why_tests_cant": "The input space is about 2^640; the code has a rescaling branch and an overflow branch that are only entered for huge operands, so sampled vectors say little about the rounding direction of each path.", "anchors": ["benchmark/core/trade/impl.py:tradeBySourceAmountFunc", "benchmark/core/trade/impl.py:tradeBySourceAmount", "benchmark/core/trade/impl.py:mulDivF", "benchmark/core/trade/impl.py:mulDivC"]}
{"id": "C02", "title": "Integer quote by target amount never undercharges", "statement": "For every integer target amount and encoded order, whenever tradeByTargetAmount returns something other than the failure sentinel 2^128-1, the source amount charged is at least what the exact curve x z^2/((Ay+Bz)(Ay+Bz-Ax)) requires.", "quantifier": "all integer target amounts, all orders with non-negative integer fields", "why_tests_cant": "Same unbounded integer space; three nested roundings (two up, one down) have to compose in the right direction for every operand size.", "anchors": ["benchmark/core/trade/impl.py:tradeByTargetAmountFunc", "benchmark/core/trade/impl.py:tradeByTargetAmount"]}
{"id": "C03", "title": "Integer quotes are total and stay in 128 bits", "statement": "tradeBySourceAmount and tradeByTargetAmount return, for every integer amount (negative, zero, huge) and every order, a value in [0, 2^128-1] and never raise; any internal overflow, negative intermediate or division by zero is turned into 0 (by source) or 2^128-1 (by target).", "quantifier": "all integers for amount and all order fields, including degenerate orders (z=0, A=0, B=0)", "why_tests_cant": "Division by zero and checked-arithmetic failures only occur on degenerate or astronomically large orders that test vectors do not contain.", "anchors": ["benchmark/core/trade/impl.py:tradeFunc", "benchmark/core/trade/impl.py:check", "benchmark/core/trade/impl.py:tradeBySourceAmount", "benchmark/core/trade/impl.py:tradeByTargetAmount"]}
{"id": "C04", "title": "Below the 256-bit limit the integer quotes are the exact floor and ceiling, hence monotone and free of round-trip profit", "statement": "When the products (z*2^48)^2 and A*x*(Ay+Bz) (resp. (Ay+Bz)^2) fit in 256 bits, the by-source quote is exactly the floor and the by-target quote exactly the ceiling of the exact curve value; consequently the by-source quote is monotone in the amount, and buying back the amount just received never costs more than was paid (byTarget(bySource(x)) <= x).", "quantifier": "all amounts and orders whose intermediate products fit in 256 bits", "why_tests_cant": "Exactness over the complete non-overflowing domain cannot be enumerated; a one-off error in a single rounding would survive tolerance-based comparison tests.", "anchors": ["benchmark/core/trade/impl.py:tradeBySourceAmountFunc", "benchmark/core/trade/impl.py:tradeByTargetAmountFunc"]}
{"id": "C05", "title": "Rate compression is a faithful round-down", "statement": "decodeFloat(encodeFloat(v)) rounds v down, is exact below 2^48, loses less than a relative 2^-47, is monotone, and re-encoding a decoded value changes nothing.", "quantifier": "all non-negative integers v of any size", "why_tests_cant": "Bit-level codec over an unbounded domain; the interesting points are the powers of two of every size.", "anchors": ["benchmark/core/trade/impl.py:encodeFloat", "benchmark/core/trade/impl.py:decodeFloat", "benchmark/core/trade/impl.py:bitLength"]}
{"id": "C06", "title": "Encoding an order preserves its defining relations", "statement": "For every order with rates L <= M <= H, L < M (or M = H), encodeOrder produces capacity z >= y, encoded L and H that are exactly representable, and decodeOrder gives back the same liquidity, a lowest rate not above the original and a highest rate not above the original; the rate encoder itself never rounds up and loses less than one part in 2^47.", "quantifier": "all non-negative rational rates and liquidities", "why_tests_cant": "Continuous input domain, with precision loss that depends on bit lengths of the square roots.", "anchors": ["benchmark/core/trade/impl.py:encodeOrder", "benchmark/core/trade/impl.py:decodeOrder", "benchmark/core/trade/impl.py:encodeRate", "benchmark/core/trade/impl.py:decodeRate"]}
{"id": "C07", "title": "Contract formulas equal the closed-form specification", "statement": "In exact arithmetic the (y,z,A,B) formulas used by the integer implementation equal the (L,M,y) formulas of the benchmark specification for every order whose z was derived from its marginal rate, in both directions.", "quantifier": "all positive rationals y, all L <= M <= H with L<M", "why_tests_cant": "An algebraic identity over a continuum; the repo's test compares a finite CSV with a tolerance.", "anchors": ["benchmark/core/trade/spec.py:tradeBySourceAmountFunc", "benchmark/core/trade/spec.py:tradeByTargetAmountFunc", "benchmark/core/trade/impl.py:tradeBySourceAmountFunc"]}
{"id": "C08", "title": "Greedy matching respects the request and each order's liquidity", "statement": "For every order book and every requested amount, the actions returned by the fast matcher (by source and by target) use pairwise distinct existing orders, have strictly positive input and output, inputs that sum to at most the requested amount, and never take more of the sold token from an order than its liquidity.", "quantifier": "all finite order books with non-negative fields (by target: any integer fields), all non-negative amounts, both matching directions, every sorting function that permutes its input", "why_tests_cant": "Order books are unbounded; the interaction between pre-computed quotes, the remaining amount and the fall-back sentinels cannot be sampled exhaustively.", "anchors": ["benchmark/core/match/impl.py:matchFast", "benchmark/core/match/impl.py:rateBySourceAmount", "benchmark/core/match/impl.py:rateByTargetAmount", "benchmark/core/match/impl.py:matchBy"]}
{"id": "C09", "title": "The by-source quote clamp always terminates within liquidity", "statement": "rateBySourceAmount terminates for every order and amount, never reports an output above the order's liquidity, and reports exactly the integer quote of the input it reports.", "quantifier": "all orders with non-negative liquidity, all integer amounts", "why_tests_cant": "It contains a while loop whose exit depends on non-monotone integer rounding; termination is not testable.", "anchors": ["benchmark/core/match/impl.py:rateBySourceAmount"]}
{"id": "C10", "title": "Optimal matching can overfill the request", "statement": "matchBest does not guarantee that the inputs of the returned actions sum to at most the requested amount: the correction step may push the last order to a negative input which the positivity filter then drops, so the others overfill. When no corrected input is negative the sum is bounded by the request.", "quantifier": "all order books and amounts (universal bound under the stated condition, and an explicit counterexample without it)", "why_tests_cant": "The repo's test only asserts the bound on stored books; the failing books need steep and flat orders side by side.", "anchors": ["benchmark/core/match/impl.py:matchBest", "benchmark/core/match/impl.py:equalizeByTargetAmount", "benchmark/core/match/impl.py:getLimit"]}
{"id": "C11", "title": "Optimal matching only returns genuine quotes", "statement": "Every action returned by matchBest refers to an existing order, has positive input and output, its output is the integer quote of its input for that order, and (by target) its input does not exceed the order's liquidity; the binary search and correction loops terminate for every book.", "quantifier": "all finite order books, all amounts, both directions", "why_tests_cant": "Loops over data-dependent intervals on unbounded integers.", "anchors": ["benchmark/core/match/impl.py:matchBest", "benchmark/core/match/impl.py:matchBy"]}
{"id": "C12", "title": "Token pair price conversion is an involution and consistent with amount conversion", "statement": "For every pair and positive price, convert_price returns the price unchanged for the quote token and its reciprocal for the base token; converting there and back is the identity; converting an amount from one token to the other and back returns the amount; tokens outside the pair give None.", "quantifier": "all pairs, all tokens, all positive prices and amounts", "why_tests_cant": "Holds over all strings and all real prices.", "anchors": ["carbon/pair.py:convert_price", "carbon/pair.py:convert", "carbon/pair.py:price"]}
{"id": "C13", "title": "Limit check means 'this price or better' and respects buy/sell symmetry", "statement": "limit_is_met(tkn, limit, BUY, p) is true exactly when the buyer pays at most the limit in units of the token they give, i.e. p<=limit if tkn is the base token and p>=limit if tkn is the quote token; SELL is the mirror image; buying one token at a limit is equivalent to selling the other; away from the limit exactly one of BUY and SELL is met; unknown tokens give None.", "quantifier": "all pairs of distinct tokens, all prices and limits", "why_tests_cant": "Every ordering of two real numbers times every token; symmetric statements between different calls.", "anchors": ["carbon/pair.py:limit_is_met"]}
{"id": "C14", "title": "Pair construction normalises and round-trips; reversing twice is the identity", "statement": "For every slash-free pair of token names, constructing from 'a/b' equals constructing from the two upper-cased tokens, construction is idempotent, strings with zero or several slashes are rejected, other() is an involution on the two tokens of the pair, and reverse is an involution exchanging base and quote. create accepts the same in one or two strings, returns a pair as it is, and refuses everything else except nothing at all, for which it returns None.", "quantifier": "all strings", "why_tests_cant": "Quantifies over all strings.", "anchors": ["carbon/pair.py:CarbonPair.__post_init__", "carbon/pair.py:reverse", "carbon/pair.py:other", "carbon/pair.py:create"]}
{"id": "C15", "title": "Pair identification by ISO name is ambiguous", "statement": "Two different pairs can have the same pair_iso, so orders of one pair are eligible for trades of another; for tokens that all have the same length (or for the slash name) the identification is exact.", "quantifier": "all pairs of token names", "why_tests_cant": "Needs specially chosen token names; absence of collisions can only be shown universally.", "anchors": ["carbon/pair.py:pair_iso", "carbon/simulators/carbon_simulator.py:_trade", "carbon/simulators/carbon_simulator.py:state"]}
{"id": "C16", "title": "Order ids are fresh, never reused, and strategies are symmetric", "statement": "After any history of successful and failing operations, order ids are distinct, smaller than the next id to be issued, never re-issued after deletion, every stored order carries its own id, and each successful add_strategy adds exactly two orders with consecutive ids that link to each other, sell the two different tokens of the pair and leave every other order untouched.", "quantifier": "all operation histories (adds, deletes, previews, trades with any router result)", "why_tests_cant": "Histories are unbounded.", "anchors": ["carbon/simulators/carbon_simulator.py:add_strategy", "carbon/simulators/carbon_simulator.py:_add_order_sell_tkn", "carbon/simulators/carbon_simulator.py:_posid", "carbon/simulators/carbon_simulator.py:delete_order"]}
{"id": "C17", "title": "A rejected strategy can leave half a strategy behind", "statement": "add_strategy is not atomic: when the sell leg is valid and the buy leg is rejected, success=False is returned but the sell order stays in the book, linked to an id that does not exist; if the token or the first leg is rejected the book is unchanged. add_order adds the leg it is given and an empty, disabled order linked to it, or nothing. The pair of an operation is the simulator's own if none or an empty text is given, the pair as written if a text with one slash is given, and an error otherwise.", "quantifier": "all states and all argument combinations", "why_tests_cant": "Requires enumerating which leg fails for every state and argument combination.", "anchors": ["carbon/simulators/carbon_simulator.py:add_strategy", "carbon/simulators/carbon_simulator.py:_add_order_sell_tkn"]}
{"id": "C18", "title": "Deleting a strategy removes exactly its orders unless the partner has id 0", "statement": "delete_order(id) of an unknown id changes nothing and returns []; for an existing order it removes exactly that order and its partner and returns their ids, except when the partner is order 0: then only the order itself is removed and order 0 stays behind with a dangling link.", "quantifier": "all reachable books and ids", "why_tests_cant": "The defect only concerns the very first order ever created; unit tests delete by the first id.", "anchors": ["carbon/simulators/carbon_simulator.py:delete_order"]}
{"id": "C19", "title": "Previews and failed limits never move balances", "statement": "A trade with execute=False, or whose limit price (or limit amount) is not met, leaves every order's balance, capacity and all other order data unchanged, whatever the router returns, while still recording the trade as not executed.", "quantifier": "all states, all router results, all limits", "why_tests_cant": "The router result and state are arbitrary; must hold for every route list.", "anchors": ["carbon/simulators/carbon_simulator.py:_trade"]}
{"id": "C20", "title": "Executed trades conserve tokens strategy by strategy", "statement": "When a trade executes, for every order the balance changes by exactly minus the sum of the routed amounts it sold plus the sum of the amounts bought by the order linked to it; nothing else changes, so token totals over the book change exactly by the recorded trade amounts (apart from orders linked to themselves, whose proceeds vanish).", "quantifier": "all well-linked books, all router results, both router conventions", "why_tests_cant": "Sums over arbitrary route lists with repeated or mutually linked orders.", "anchors": ["carbon/simulators/carbon_simulator.py:_trade"]}
{"id": "C21", "title": "Trades only touch eligible orders and their partners", "statement": "A trade of a token never changes an order unless it was eligible (sells that token, in that pair's book, enabled, non-empty, selected by use_positions) and routed to, or is the partner of such an order.", "quantifier": "all states, selections and router results", "why_tests_cant": "Universal frame condition over the whole book.", "anchors": ["carbon/simulators/carbon_simulator.py:_trade"]}
{"id": "C22", "title": "Balances stay between zero and capacity through every history", "statement": "Through any history of adds (with amounts 0 <= amt <= y_int), deletes, previews and trades routed by the fast router, every order keeps 0 <= y <= y_int, and the capacity y_int of an order never decreases.", "quantifier": "all operation histories of any length", "why_tests_cant": "Invariant over unbounded histories.", "anchors": ["carbon/simulators/carbon_simulator.py:_trade", "carbon/routers/fast_router.py:match", "carbon/simulators/carbon_simulator.py:_add_order_sell_tkn"]}
{"id": "C23", "title": "Trade log is append-only with unique ids", "statement": "numtrades increases by exactly one for each successful trade (executed, previewed or limit-failed) and never otherwise; each success appends records uid 'n.0' ... 'n.k-1' and 'n' and never alters records of earlier trades.", "quantifier": "all operation histories", "why_tests_cant": "Unbounded histories, string uids must never collide.", "anchors": ["carbon/simulators/carbon_simulator.py:_trade"]}
{"id": "C24", "title": "A failing trade is not always a no-op", "statement": "If a route hits an order whose partner has been lost (see C17/C18), the trade reports failure after having already taken tokens from that order; on books where every link is present a failing trade in a token of the pair leaves all orders unchanged (a token outside the pair can, through a name collision as in C15, still take tokens from an order before failing).", "quantifier": "all states and router results", "why_tests_cant": "Failure atomicity must hold for each possible failure point.", "anchors": ["carbon/simulators/carbon_simulator.py:_trade"]}
{"id": "C25", "title": "Negative amounts mirror the trade direction but drop the position filter", "statement": "amm_buys with a negative amount behaves exactly like amm_sells with the opposite amount and no position selection (and vice versa); in particular a use_positions restriction given with a negative amount is ignored.", "quantifier": "all states and arguments", "why_tests_cant": "Equivalence of two call forms over every state.", "anchors": ["carbon/simulators/carbon_simulator.py:amm_buys", "carbon/simulators/carbon_simulator.py:amm_sells"]}
{"id": "C26", "title": "Fast router fills exactly when liquidity allows", "statement": "In exact arithmetic the fast router by target delivers exactly the requested amount whenever the listed non-empty orders hold at least that much, and everything they hold otherwise; by source its inputs sum to the smaller of the request and what all orders together can absorb; outputs never exceed balances; when no order quotes a positive rate it raises.", "quantifier": "all books of orders with positive parameters, all amounts", "why_tests_cant": "Unbounded books and continuous parameters.", "anchors": ["carbon/routers/fast_router.py:match", "carbon/routers/fast_router.py:get_trade_amounts_by_target_amount", "carbon/routers/fast_router.py:get_trade_amounts_by_source_amount"]}
{"id": "C27", "title": "Fast router ranks by price", "statement": "The quote comparator is a total preorder on positive quotes and ranks strictly better rates first (by source: more output per input; by target: less output per input), ties by size (by source the larger output first, by target the smaller); the routed orders appear in that order.", "quantifier": "all positive quotes", "why_tests_cant": "Transitivity over a continuum of quotes.", "anchors": ["carbon/routers/fast_router.py:cmp_min", "carbon/routers/fast_router.py:cmp_max", "carbon/routers/fast_router.py:match"]}
{"id": "C28", "title": "Fast-router quotes invert each other", "statement": "With exact arithmetic amt_by_target and amt_by_src are inverse to each other on the order's range and equal the curve formulas shown by CarbonOrderUI (dyfromdx_f, dxfromdy_f); with floor division they round against the trader.", "quantifier": "all orders with positive parameters, all amounts in range", "why_tests_cant": "Algebraic identity over a continuum.", "anchors": ["carbon/routers/fast_router.py:amt_by_src", "carbon/routers/fast_router.py:amt_by_target", "carbon/carbon_order_ui.py:dyfromdx_f", "carbon/carbon_order_ui.py:dxfromdy_f"]}
{"id": "C29", "title": "Exact router by target splits exactly and equalises marginal prices", "statement": "For every subset of orders, the amounts computed by the exact router for a requested target amount add up to exactly that amount and leave all orders at the same marginal price.", "quantifier": "all finite sets of orders with positive parameters, all requested amounts", "why_tests_cant": "n-ary algebraic identity with products over subsets; tests only check small n within tolerance.", "anchors": ["carbon/routers/exact_router_x0y0n.py:amt_by_target", "carbon/routers/exact_router_x0y0n.py:handle_subfunctions_target"]}
{"id": "C30", "title": "Exact router by source splits exactly and equalises marginal prices", "statement": "For every subset of orders, the inputs implied by the exact router's split of a source amount add up to exactly that amount and leave all orders at the same marginal price.", "quantifier": "all finite sets of orders with positive parameters, all source amounts", "why_tests_cant": "n-ary algebraic identity.", "anchors": ["carbon/routers/exact_router_x0y0n.py:amt_by_src", "carbon/routers/exact_router_x0y0n.py:handle_subfunctions_src", "carbon/routers/exact_router_x0y0n.py:b_src", "carbon/routers/exact_base_router.py:dxdy"]}
{"id": "C31", "title": "Equal marginal prices are optimal", "statement": "Among all ways to take a given total amount from a set of orders (each staying in its valid range), a split that equalises the marginal prices costs the least input, and likewise yields the most for a given input; the router's price is the derivative of what is paid.", "quantifier": "all finite sets of orders, all alternative splits", "why_tests_cant": "An optimisation statement against all alternatives.", "anchors": ["carbon/routers/exact_router_x0y0n.py:amt_by_target", "carbon/routers/exact_base_router.py:match"]}
{"id": "C32", "title": "Exact matching terminates within liquidity", "statement": "The exact matching loop terminates for every book and every split formula; a returned routing never takes more from an order than its balance, never uses an order outside the allowed selection or an empty order, and by target returns exactly the requested amount or what the accuracy check tolerates.", "quantifier": "all books, all splits (arbitrary oracle for the closed-form split), all selections", "why_tests_cant": "Nested while loops whose progress is not obvious.", "anchors": ["carbon/routers/exact_base_router.py:match", "carbon/routers/exact_base_router.py:check_partial_swaps", "carbon/routers/base_router.py:sufficient_liquidity_exists"]}
{"id": "C33", "title": "Order preselection returns enough liquidity", "statement": "gen_one_order_selector returns at most k distinct valid positions for every non-empty list of non-negative liquidities and k >= 1; their total reaches the threshold whenever any k orders can, and otherwise equals the best possible total of k orders; its internal assertions never fire. With k=0 it selects nothing; an empty list is a ValueError.", "quantifier": "all non-empty lists of non-negative numbers, thresholds and k>=1", "why_tests_cant": "Sliding-window replacement algorithm; optimality over all k-subsets.", "anchors": ["carbon/routers/alpha_router.py:gen_one_order_selector"]}
{"id": "C34", "title": "Order parameters reproduce the requested marginal price", "statement": "An order created with a marginal price strictly above its low price gets a capacity at which the displayed marginal price equals the requested one, the price ends equal the given (sorted) prices, and capacity >= balance exactly when the marginal price lies inside the range. Every order that can be made has curve parameters.", "quantifier": "all positive prices and balances", "why_tests_cant": "Real-analytic identity with square roots.", "anchors": ["carbon/order.py:__post_init__", "carbon/carbon_order_ui.py:p_marg_f", "carbon/carbon_order_ui.py:from_order"]}
{"id": "C35", "title": "x0/y0/n form agrees with the curve only for capacity >= 1", "statement": "For capacity y_int >= 1 (and distinct prices) the dx/dy formula of the exact router agrees with the CarbonOrderUI curve for every trade; for capacities below 1 the order object silently substitutes capacity 1 and the two disagree.", "quantifier": "all orders and trade sizes", "why_tests_cant": "Continuum; the defect appears only for small capacities such as 0.5 WBTC.", "anchors": ["carbon/order.py:x0", "carbon/order.py:y0", "carbon/routers/exact_base_router.py:dxdy", "carbon/carbon_order_ui.py:dxfromdy_f"]}
{"id": "C36", "title": "Curve trade functions invert each other and are path independent", "statement": "On every curve with positive parameters: dyfromdx_f and dxfromdy_f are inverse; trading dy1 and then dy2 costs exactly as much as dy1+dy2 at once; xfromy_f and yfromx_f are inverse on the curve and differences of xfromy_f equal dxfromdy_f.", "quantifier": "all curves, all trades in range", "why_tests_cant": "Identities over a continuum, histories of trades of any length.", "anchors": ["carbon/carbon_order_ui.py:dyfromdx_f", "carbon/carbon_order_ui.py:dxfromdy_f", "carbon/carbon_order_ui.py:xfromy_f", "carbon/carbon_order_ui.py:yfromx_f"]}
{"id": "C37", "title": "Marginal price moves monotonically inside the range and bounds the effective price", "statement": "The marginal price is pa at full capacity and pb when empty, is strictly monotone in the traded amount, and the effective price of every trade lies strictly between the marginal prices before and after.", "quantifier": "all curves with S>0, all trades in range", "why_tests_cant": "Inequalities over a continuum.", "anchors": ["carbon/carbon_order_ui.py:p_marg_f", "carbon/carbon_order_ui.py:p_eff_f"]}
{"id": "C38", "title": "yfromp_f inverts the marginal price and tradeto lands on the price", "statement": "yfromp_f(p_marg(y)) = y; executing tradeto(p) for a price between the current marginal price and the end leaves the curve exactly at p, a price beyond the end empties the curve, a price on the other side does nothing, and repeating tradeto changes nothing; the exception are trades of less than 1e-10 tokens, which are never executed. On a flat curve (S=0) tradeto to its price or beyond raises a division by zero.", "quantifier": "all curves and target prices", "why_tests_cant": "Real-analytic; needs every price relative to every curve state.", "anchors": ["carbon/carbon_order_ui.py:yfromp_f", "carbon/carbon_order_ui.py:dyfromp_f", "carbon/carbon_order_ui.py:tradeto", "carbon/carbon_order_ui.py:selly"]}
{"id": "C39", "title": "Virtual reserves satisfy the constant-product invariant", "statement": "For every curve with S>0, (x-xasym)(y-yasym)=kappa holds at every point of the curve, x0*y0-form parameters are consistent (y0/x0 = p0_raw = sqrt(pa pb)), and xint is where y becomes zero. Gamma and Q determine each other through Q_from_Gamma and Gamma_from_Q, and int_over_0 and asym_over_0 are the ratios they are described as, on both axes.", "quantifier": "all curves", "why_tests_cant": "Algebraic identity over a continuum.", "anchors": ["carbon/carbon_order_ui.py:kappa", "carbon/carbon_order_ui.py:xasym", "carbon/carbon_order_ui.py:yasym", "carbon/carbon_order_ui.py:x0", "carbon/carbon_order_ui.py:y0", "carbon/carbon_order_ui.py:xint"]}
{"id": "C40", "title": "selly keeps the curve in range and conserves tokens", "statement": "An executed selly within capacity reduces y by exactly dy, adds exactly dxfromdy(dy) to the linked curve, keeps 0<=y<=yint on both, and never lowers a capacity; amounts below 1e-10 change nothing, and a request exceeding the balance by more than 1e-10 is rejected and changes nothing. Between the two (and for negative dy on linked curves) an exception can leave the curve changed.", "quantifier": "all pairs of linked curves, all dy", "why_tests_cant": "Histories of trades on two linked objects.", "anchors": ["carbon/carbon_order_ui.py:selly", "carbon/carbon_order_ui.py:addliqy"]}
{"id": "C41", "title": "selly previews still move the linked curve", "statement": "With execute=False selly leaves the curve itself unchanged but the linked curve still receives dx; without a linked curve a preview changes nothing. Preview of tradeto on a zero-capacity curve changes its capacity.", "quantifier": "all curves and amounts", "why_tests_cant": "Frame condition on an aliased second object.", "anchors": ["carbon/carbon_order_ui.py:selly", "carbon/carbon_order_ui.py:tradeto"]}
{"id": "C42", "title": "Approximate liquidity is a measure of the price range", "statement": "liquidity_approx as percentage always lies in [0,1], does not depend on the order of the two prices, is 1 for a range covering the curve (for a single-price curve the upper end must exceed the price), and is additive over adjacent ranges for a non-degenerate curve.", "quantifier": "all curves and price ranges", "why_tests_cant": "Case split over all orderings of four real numbers.", "anchors": ["carbon/carbon_order_ui.py:liquidity_approx"]}
{"id": "C43", "title": "goalseek brackets a sign change", "statement": "For 0<a<b and every function with opposite signs at a and b, goalseek terminates and returns a point m such that a sign change of the function lies within a relative eps of m; it never stops for eps<=0. A negative lower bound makes it return the first midpoint unless that midpoint is a non-negative new lower end; a zero lower end raises a division by zero.", "quantifier": "all functions (not only continuous ones), all brackets", "why_tests_cant": "Quantifies over functions; termination of bisection.", "anchors": ["carbon/carbon_order_ui.py:goalseek"]}
{"id": "C44", "title": "CarbonFloatInt truncates to 40 significant bits", "statement": "For every non-negative integer below 2^296 the stored value is the largest number with at most 40 significant bits that does not exceed it: it differs by less than 2^exponent and by less than one part in 2^39, is exact below 2^40, storing it again changes nothing, the conversion is monotone, and the result does not depend on the rounding of math.log2. The exponent can be 256, which does not fit into its 8 bits; numbers too large end in a NameError, negative ones in an AssertionError; min() is one, the smallest positive value.", "quantifier": "all non-negative integers", "why_tests_cant": "Unbounded domain with power-of-two boundaries.", "anchors": ["carbon/helpers/floatint.py:from_int", "carbon/helpers/floatint.py:asint"]}
{"id": "C45", "title": "Version requirement check is a total preorder, but trailing zeros matter", "statement": "_require_version accepts exactly the versions that are lexicographically >= the requirement; it is reflexive, transitive and total; and antisymmetric; '1.2' does not satisfy '1.2.0'. Version strings are optional white space, decimal numbers separated by dots, and any rest; others raise ValueError. When the requirement is met and raiseonfail is on, None is returned instead of True.", "quantifier": "all version tuples", "why_tests_cant": "All lists of integers.", "anchors": ["carbon/helpers/version.py:_require_version"]}
{"id": "C46", "title": "Checked uint256 helper does not clamp overflow", "statement": "check_uint256 returns its argument for every value in range, 0 for negative values, and for values above 2^256-1 returns the value itself (not a 256-bit value). With raise_lvl LVL_ERR exactly the values from 100 to 2^256-1 pass (0 raises UnderflowError), with LVL_WARN those from 10000 to about 2^256/10000, and with LVL_LOG ordinary values end in a KeyError.", "quantifier": "all integers", "why_tests_cant": "All integers.", "anchors": ["carbon/helpers/soltest.py:check_uint256"]}
{"id": "C47", "title": "Uniswap v3 tick ranges contain the tick", "statement": "For every integer tick (negative too) and positive tick spacing, the computed lower and upper ticks are multiples of the spacing, exactly one spacing apart, and bracket the tick.", "quantifier": "all integers", "why_tests_cant": "All integers; negative ticks are where floor division matters.", "anchors": ["carbon/tools/univ3calc.py:tickab"]}
{"id": "C48", "title": "Exactly one orientation of a pair is primary", "statement": "For every two distinct tokens exactly one of the two orientations is primary, the primary pair of a pair and of its reverse coincide, and primary prices of the two orientations agree; a numeraire token is the quote token of every primary pair with a token that is none, of two numeraire tokens the one listed first is the quote, and otherwise the alphabet decides. The two pair classes agree unless a token contains an opening parenthesis.", "quantifier": "all token names", "why_tests_cant": "All strings, with numeraire ranking and alphabetical ties.", "anchors": ["carbon/tools/simplepair.py:SimplePair", "carbon/tools/cpc.py:Pair"]}
{"id": "C49", "title": "Constant product curve trades preserve k", "statement": "execute on a constant product curve preserves k, moves actual and virtual reserves by the same amounts, and executing dx followed by the opposite trade restores the curve; the side paid out of is never overdrawn unless bounds are ignored, but the side paid into is not checked.", "quantifier": "all curves and trades", "why_tests_cant": "Continuum; sequences of trades.", "anchors": ["carbon/tools/cpc.py:execute"]}
{"id": "C50", "title": "Constant product curve price/reserve queries are inverse and clamped", "statement": "xyfromp_f returns reserves with x*y=k and price p for prices inside [p_min,p_max], and the end-point reserves for prices outside; yfromx_f and xfromy_f are inverse inside the range; from_univ3 and from_pkpp reproduce their price bounds. from_univ3 of a position with a fee that Uniswap does not have is an AssertionError. A bound that is None does not restrict a range test.", "quantifier": "all curves and prices", "why_tests_cant": "Continuum.", "anchors": ["carbon/tools/cpc.py:xyfromp_f", "carbon/tools/cpc.py:from_pkpp", "carbon/tools/cpc.py:from_univ3"]}
{"id": "C51", "title": "Carbon order as constant product curve trades identically", "statement": "The constant product curve built from a Carbon order quotes, for every amount in range, the same output as the order's own curve formula.", "quantifier": "all orders and amounts", "why_tests_cant": "Continuum.", "anchors": ["carbon/tools/cpc.py:from_carbon", "carbon/carbon_order_ui.py:as_cpc", "carbon/carbon_order_ui.py:dyfromdx_f"]}
{"id": "C52", "title": "Arbitrage cycle evaluation is consistent and within capacity", "statement": "On a graph with positive amounts and an edge for every step of the cycle, run_arbitrage_cycle returns the largest input that fits through all steps; its output is the input times the product of the steps' average prices and its profit is output minus input (return and profit per step are these over the number of steps); on a cycle without repeated nodes no edge is asked for more than its capacity (on cycles that repeat a node it can be). A missing edge, an empty cycle and a token outside the cycle (unless any token is allowed) are errors.", "quantifier": "all cycles of any length and all capacities", "why_tests_cant": "Unbounded cycles; the algorithm rescales retroactively.", "anchors": ["carbon/tools/arbgraphs.py:run_arbitrage_cycle"]}
{"id": "C53", "title": "Edge transport conserves amounts, but fails non-atomically", "statement": "A successful recorded transport lowers the edge's remaining capacity and the source node by the amount and raises the target node by amount times price, within tolerance of capacity and balance; over any sequence of transports each node has changed by exactly what the used capacities say. When it fails for lack of remaining capacity that capacity has already been lowered, and when it fails for lack of balance everything has already been booked; unrecorded transports change nothing.", "quantifier": "all states and amounts", "why_tests_cant": "State after each failure point.", "anchors": ["carbon/tools/arbgraphs.py:Edge.transport"]}
{"id": "C54", "title": "Cycle iteration and sub-cycle test", "statement": "Iterating a non-empty cycle yields each node once in order, starting at the chosen node, and closes with the start node; pairs() yields each adjacent pair exactly once; every cycle is a sub-cycle of itself, and one without repeated nodes of each of its rotations; among cycles without repeated nodes the relation is transitive and antisymmetric up to rotation. filter_subcycles, described as filtering sub-cycles out, returns exactly the sub-cycles, in their order.", "quantifier": "all cycles", "why_tests_cant": "Unbounded length and rotation.", "anchors": ["carbon/tools/arbgraphs.py:Cycle"]}
{"id": "C55", "title": "Strategy prices are ordered around the mid price; value split and rescaling are exact", "statement": "from_mgw with positive mid price, positive gap and widths in (0,1] gives p_buy_b < p_buy_a < m < p_sell_a < p_sell_b with p_buy_a*p_sell_a = m^2, p_sell_a/p_buy_a = (1+g/2)^2 and widths as given but at most 0.999; the marginal price is the start plus the utilised part of the range. Widths and utilisations above 1 or below 0, and zeros in a pair of widths, are refused (with ValueError for single numbers and TypeError for pairs); a negative gap is accepted and gives overlapping ranges. set_tvl splits the total value exactly and only once; rescaling multiplies prices and cash capacity, is not applied twice and composes when forced.", "quantifier": "all parameters", "why_tests_cant": "Continuum of parameters.", "anchors": ["carbon/helpers/strategym.py:from_mgw", "carbon/helpers/strategym.py:_validate", "carbon/helpers/strategym.py:set_tvl", "carbon/helpers/strategym.py:rescale_strat"]}
{"id": "C56", "title": "Strategy validation never runs and zero risk amounts are not seeded", "statement": "Giving both a marginal price and a capacity is accepted because the checking initialiser is overridden; a zero cash amount is seeded with 1e-10 but a zero risk-token amount stays zero (the seed is stored under another name); set_tvl with a cash share of 0 leaves the cash at zero because the copy is not initialised again.", "quantifier": "all strategy parameters", "why_tests_cant": "Silent override of a method and a misspelt attribute; nothing fails.", "anchors": ["carbon/helpers/strategym.py:__post_init__", "carbon/helpers/strategym.py:set_tvl"]}
{"id": "C57", "title": "Parameter container semantics", "statement": "Parameter lookup returns the explicitly set value, else the class default, else the given default/None; re-assignment of a set key is refused and leaves the container unchanged; the first call of set_default drops its keyword arguments unless a missing key was looked up before; add() stores the keys before a colliding one; construct() from another object drops its defaults.", "quantifier": "all key/value histories", "why_tests_cant": "Histories of operations.", "anchors": ["carbon/tools/params.py:Params"]}
{"id": "C58", "title": "Shared variables are seen by every holder", "statement": "For every program of assignments, aliases, setval, in-place and binary operations each name reads the number it has in a reference semantics of shared mutable integers; sets and in-place operations are seen by all linked names and no others, links last until a name is rebound. Combining two shared variables in place leaves a shared variable, not a number, in .value.", "quantifier": "all histories and numbers of holders", "why_tests_cant": "Unbounded histories with aliasing.", "anchors": ["carbon/helpers/sharedvar.py"]}
{"id": "C59", "title": "Greedy matching takes the best-priced orders first", "statement": "In the integer fast matcher, when every order quotes a positive input for the request, an action never has a worse quoted rate than a later action, and no unused order with a positive quote has a better quoted rate than a used one (by source: more output per input; by target: less payment per unit taken).", "quantifier": "all order books and amounts, both directions", "why_tests_cant": "A ranking claim over books of any length with an integer cross-multiplication comparator.", "anchors": ["benchmark/core/match/impl.py:sortByMinRate", "benchmark/core/match/impl.py:sortByMaxRate", "benchmark/core/match/impl.py:sortedQuotes", "benchmark/core/match/impl.py:matchFast"]}
{"id": "C60", "title": "Recovering a pair from its ISO name works only when the token occurs once", "statement": "from_isopair_and_tkn(pair_iso, base) returns the pair whenever the base token does not occur inside the quote token, and with the quote token whenever it occurs only at the end of the ISO name; without a token the name is split in the middle, exact for two tokens of length 3 or two of length 4, and every length other than 6 or 8 is rejected. Without these conditions the result can be a different pair with a dot in a token name (USD/USDC).", "quantifier": "all pairs of token names", "why_tests_cant": "Quantifies over all strings; str.replace acts on all occurrences at once.", "anchors": ["carbon/pair.py:from_isopair_and_tkn"]}
{"id": "C61", "title": "A limit amount is a limit on the unit price", "statement": "With a limit amount the trade executes exactly when the average price is at least as good for the trader as trading the requested amount against the limit amount: amm_buys executes iff received * requested >= limit_amt * paid, amm_sells (exact routers) iff paid * requested <= limit_amt * received; otherwise nothing moves. A partially filled trade can therefore execute although it delivers less than the limit amount.", "quantifier": "all states, amounts, limits and router results with positive totals", "why_tests_cant": "Concerns a comparison of ratios for every router outcome.", "anchors": ["carbon/simulators/carbon_simulator.py:_trade", "carbon/simulators/carbon_simulator.py:amm_buys", "carbon/simulators/carbon_simulator.py:amm_sells"]}
{"id": "C62", "title": "With the fast router, sell limits are checked against the reciprocal price", "statement": "For amm_sells with the fast router the limit price is compared with the reciprocal of the price recorded for the trade, so a trade can execute at a price that violates its limit.", "quantifier": "all states and router results with positive totals", "why_tests_cant": "Depends on an interplay of two swapped fields that only shows for one router and one direction.", "anchors": ["carbon/simulators/carbon_simulator.py:_trade", "carbon/routers/fast_router.py:match"]}
{"id": "C63", "title": "Reported liquidity is the sum of balances, unless a link dangles", "statement": "liquidity(pair, token) equals the sum of the balances of that token in that pair whenever every order is reportable and every link is present; if any link dangles, the report fails for every pair and token.", "quantifier": "all books", "why_tests_cant": "Quantifies over books of any size.", "anchors": ["carbon/simulators/carbon_simulator.py:state", "carbon/simulators/carbon_simulator.py:liquidity"]}
{"id": "C64", "title": "Single orders are placed at the requested id and can be overwritten", "statement": "With exclude_future=True single orders are refused without effect. Otherwise a successful add_replace_single_order stores exactly one order under the given (or a fresh) id with the given link, leaving all others unchanged; because an explicit id is not reserved, a later strategy can overwrite it.", "quantifier": "all states and arguments", "why_tests_cant": "Freshness of ids is a property of whole histories.", "anchors": ["carbon/simulators/carbon_simulator.py:add_replace_single_order"]}
{"id": "C65", "title": "Equalizing limits in optimal matching", "statement": "getLimit is the marginal rate of an order rounded down; equalizeByTargetAmount is the largest amount after which the order's marginal rate is still at least the limit (the whole liquidity for a flat order), it grows when the limit falls, and at the order's own limit it takes less than one rate unit.", "quantifier": "all encoded orders and limits", "why_tests_cant": "An integer rounding claim over all 256-bit parameters.", "anchors": ["benchmark/core/match/impl.py:getLimit", "benchmark/core/match/impl.py:equalizeByTargetAmount", "benchmark/core/match/impl.py:equalizeBySourceAmount"]}
{"id": "C66", "title": "Curve constructors reproduce the given prices and intercepts", "statement": "from_prices with positive prices in either order yields a curve whose range is exactly the two given prices, with the start price pa on the side on which the curve starts selling and the given capacity and balance; it never yields a balance outside [0,yint]. from_Qxy with 0<Q<=1 yields a curve with exactly the given Q and x-intercept; Q>1 is accepted and gives an inverted range.", "quantifier": "all prices, capacities, balances and both selling directions", "why_tests_cant": "Square roots of arbitrary reals; tests only use a few round prices.", "anchors": ["carbon/carbon_order_ui.py:from_prices", "carbon/carbon_order_ui.py:from_Qxy", "carbon/carbon_order_ui.py:__post_init__"]}
{"id": "C67", "title": "Exact matching is optimal over all feasible routings", "statement": "Whenever the usable orders can serve a positive request, the exact match (with its dropping of orders and clamping of exhausted ones) serves exactly the request within the balances, and no routing over usable orders and within their balances serves at least as much target for less source (by target), or yields more target for at most the same source (by source).", "quantifier": "all books of sane orders, all selections, all feasible alternative routings, both directions, with or without the liquidity check and partial support", "why_tests_cant": "Optimality against a continuum of alternatives, for an iterative algorithm with clamping.", "anchors": ["carbon/routers/exact_base_router.py:match", "carbon/routers/exact_router_x0y0n.py:amt_by_target", "carbon/routers/exact_router_x0y0n.py:amt_by_src"]}
{"id": "C68", "title": "Exact matching rejects or drains when the request cannot be served", "statement": "When no routing can serve the request, exact matching without partial support fails with an assertion error (by target with the liquidity check on; by source always, provided some order is usable), and with partial support returns a routing that drains every usable order.", "quantifier": "all books of sane orders with a usable order, all unservable requests", "why_tests_cant": "The liquidity check, the loop and the accuracy check interact; tests cover single examples.", "anchors": ["carbon/routers/exact_base_router.py:match", "carbon/routers/base_router.py:sufficient_liquidity_exists"]}
{"id": "C69", "title": "Alpha routing by target: served exactly and optimally within the chosen orders, or rejected", "statement": "For a ranking that is any permutation and k>=1: if some k orders together hold the requested amount, the alpha router delivers exactly that amount from at most k orders, each within its balance and at the price of its curve, and no routing over the chosen orders delivers as much for less; if no k orders hold it, the request is rejected with an assertion error, or, with partial support, cut to the total of all balances less 1e-10 and then served or, if still too much for k orders, the k largest orders are drained. threshold_orders=0 lifts the restriction instead of selecting nothing.", "quantifier": "all books of orders with a proper price range and capacity >= 1, all amounts, thresholds and rankings", "why_tests_cant": "Selection, clamping and the exact router interact; optimality quantifies over all routings.", "anchors": ["carbon/routers/alpha_router.py:match_by_target", "carbon/routers/alpha_router.py:gen_one_order_selector", "carbon/routers/exact_base_router.py:match"]}
{"id": "C70", "title": "Alpha routing by source counts orders below what they can absorb", "statement": "By source the router counts an order for the whole request if it can absorb it and otherwise for its balance at the geometric mean price, which never exceeds what it can absorb. If k orders are counted for at least the request, exactly the request is paid, to at most k orders, each at the price of its curve, and no routing over the chosen orders yields more. Otherwise the k orders with the largest count are used, and the request is served if they can absorb it and rejected if not, so that requests which other k orders could absorb are rejected; with partial support the request is cut to the total count less 1e-10 although the orders may absorb more. Without threshold_orders the call fails with a TypeError.", "quantifier": "all books of orders with a proper price range and capacity >= 1, all positive amounts, thresholds and rankings", "why_tests_cant": "The undercounting only shows for particular combinations of partially filled orders.", "anchors": ["carbon/routers/alpha_router.py:match_by_src", "carbon/routers/alpha_router.py:get_geoprice", "carbon/routers/exact_base_router.py:match"]}
{"id": "C71", "title": "Uniswap v3 calculator: prices, range and liquidity", "statement": "For every accepted fee the range bounds are positive, ordered and one tick size apart in powers of 1.0001; if the square root price belongs to the tick the price lies in the range; the two price conventions are reciprocal; converting a price to a square root price and back is the identity; k is the product, p the quotient and kbar the geometric mean of the virtual reserves in token units.", "quantifier": "all ticks, square root prices, liquidities and decimals", "why_tests_cant": "Unbounded ticks and decimals, real powers; tests use two pools.", "anchors": ["carbon/tools/univ3calc.py:Univ3Calculator"]}
{"id": "C72", "title": "Token scales: every token has one, the last one set", "statement": "After any sequence of add_scale calls the scale of a token is the last one added for it, else the one it had before, else the default 1e-2.", "quantifier": "all dictionaries and sequences of additions", "why_tests_cant": "Histories are unbounded.", "anchors": ["carbon/tools/tokenscale.py:TokenScale"]}
{"id": "C73", "title": "Uniswap v3 reserves are off by a power of ten unless decimals1 = 3*decimals0", "statement": "tkn0reserve and tkn1reserve return the amounts held by the position in token units multiplied by the square root of 10^(3*decimals0-decimals1), hence the right amounts exactly if decimals1 = 3*decimals0 (true for USDC/WETH); tvl in token 1 is price times reserve 0 plus reserve 1 and price times tvl in token 0.", "quantifier": "all pools strictly inside their range, all decimals", "why_tests_cant": "The only pool in the tests is USDC/WETH, where the wrong factor is 1.", "anchors": ["carbon/tools/univ3calc.py:tkn0reserve", "carbon/tools/univ3calc.py:tkn1reserve", "carbon/tools/univ3calc.py:tvl"]}
{"id": "C74", "title": "Inverted curve behaves as the pool with the tokens exchanged", "statement": "For every pool, the inverter answers every query about reserves, bounds, prices, quotes and trades exactly as the pool with its two tokens exchanged would, and a trade on it leaves the inverter of the pool a trade on the exchanged pool would leave; inverting twice is the identity; the one difference is that its price bounds raise a TypeError where the exchanged pool would report none.", "quantifier": "all pools, prices and trades", "why_tests_cant": "Continuum of pools; the failure needs an unlevered pool.", "anchors": ["carbon/tools/cpc.py:CPCInverter"]}
{"id": "C75", "title": "Graph construction keeps index, links and kinds consistent", "statement": "After any sequence of add_node, add_edge, add_edge_dxdy, add_edge_connection, add_edges_cpc and from_ccdxdy calls, failing ones included, a token name leads to the last node with that name and unknown names raise KeyError, edges join existing nodes, nodes are empty, amount edges have their full capacity and all edges are of one kind; calls only append; names are unique unless add_node repeats one. add_edge appends exactly the given edge; a symmetric connection and every pool add an edge and its counterpart at the reciprocal price; a list of trades gives a graph whose edges take from each token exactly the net amount traded. Amount edges are refused in a connection graph only after their nodes were added, and a trade with both signs equal is an error unless the product is at most 1e-8, when it is silently dropped.", "quantifier": "all histories of calls", "why_tests_cant": "Unbounded histories including failures; continuum of amounts.", "anchors": ["carbon/tools/arbgraphs.py:add_node", "carbon/tools/arbgraphs.py:add_edge", "carbon/tools/arbgraphs.py:add_edge_dxdy", "carbon/tools/arbgraphs.py:add_edge_connection", "carbon/tools/arbgraphs.py:add_edges_cpc", "carbon/tools/arbgraphs.py:from_ccdxdy"]}
{"id": "C76", "title": "Edge arithmetic and duplicated graphs", "statement": "Edges add exactly when they join the same nodes in the same direction and are of one kind, amounts add up and the price of a sum lies between the smallest and the largest price; scaling by a positive factor keeps the price and other factors are refused; reversing inverts the price and is an involution up to identifier and state. A consolidated duplicate has at most one edge per direction of two different nodes, with the same totals, and no loops; a plain duplicate has the same edges except that the inverse flag is lost. Nothing can be added to a duplicate.", "quantifier": "all edges, all built graphs", "why_tests_cant": "Unbounded numbers of edges.", "anchors": ["carbon/tools/arbgraphs.py:Edge.__add__", "carbon/tools/arbgraphs.py:Edge.__mul__", "carbon/tools/arbgraphs.py:Edge.reverse", "carbon/tools/arbgraphs.py:duplicate"]}
{"id": "C77", "title": "Transport between nodes is shared pro rata", "statement": "A recorded transport between two nodes that the remaining capacities and the balance allow uses the same fraction of what every edge has left, pays the average price of the remaining capacities, and changes nothing else; it cannot succeed beyond the balance (plus tolerance) or when nothing is left; without recording nothing changes; an Amount as argument raises AttributeError.", "quantifier": "all graphs, states and amounts", "why_tests_cant": "Unbounded numbers of edges; histories of earlier transports.", "anchors": ["carbon/tools/arbgraphs.py:ArbGraph.transport"]}
{"id": "C78", "title": "Prices along paths", "statement": "ptransport returns the product of the average edge prices along the path and, with a missing edge, an undefined product without an error; if all edges are priced by one valuation of the tokens then the price between two nodes is the ratio of the valuations whatever the path, price() is independent of the path found, and every cycle returns exactly 1; an empty path is an error.", "quantifier": "all graphs, paths and cycles", "why_tests_cant": "Unbounded paths.", "anchors": ["carbon/tools/arbgraphs.py:ptransport", "carbon/tools/arbgraphs.py:price"]}
{"id": "C79", "title": "Amounts, histories, reset, capacity and statistics", "statement": "Amounts at different nodes are never added, subtracted, compared or divided, numbers are never added to amounts from either side, hence sum() over amounts always raises; the negative and the absolute value of an amount stay at its node; a tracked value remembers all values it was set to; reset_state restores the state of a new graph (a starting amount given to a node is ignored); has_capacity tells exactly whether an edge has more than the tolerance left; edge statistics are the totals, their ratio and the used fraction; node statistics are the totals over the edges that enter and leave the node.", "quantifier": "all amounts, histories and graphs", "why_tests_cant": "Unbounded histories and graphs; reflected operators.", "anchors": ["carbon/tools/arbgraphs.py:Amount", "carbon/tools/arbgraphs.py:TrackedStateFloat", "carbon/tools/arbgraphs.py:reset_state", "carbon/tools/arbgraphs.py:has_capacity", "carbon/tools/arbgraphs.py:edge_statistics"]}
{"id": "C80", "title": "Strategies from ranges and from Uniswap positions", "statement": "from_sb sorts the sell range upwards and the buy range downwards whichever way they are given and refuses overlapping ranges unless allowed. from_u3 gives both sides the same range moved apart by the fee; as orders, without a fee selling the whole sell capacity earns exactly the buy capacity and spending the whole buy capacity returns exactly the sell capacity, and with a fee at least that much.", "quantifier": "all ranges, values and fees that leave the buy range positive", "why_tests_cant": "Continuum of ranges; the closing property combines two formulas.", "anchors": ["carbon/helpers/strategym.py:from_sb", "carbon/helpers/strategym.py:_sorted", "carbon/helpers/strategym.py:from_u3"]}
{"id": "C81", "title": "Strategy records", "statement": "from_dct dispatches on the type ignoring case, passes the right fields and fails on unknown types; with raiseonerror=False it never raises and returns None exactly when it would have raised. dct holds exactly the arguments of add_strategy. dr reports exactly the fields of the baseline that differ, except id0, comment and fields that become None, and fails with KeyError exactly if a field is missing; a record against itself shows exactly its NaN fields; drr always fails, with IndexError on an empty table and NameError otherwise; the positional arguments p mean the same as the keyword arguments of dct; filter_isnan turns every number that is not NaN into None.", "quantifier": "all records", "why_tests_cant": "Unbounded records; error paths.", "anchors": ["carbon/helpers/strategym.py:from_dct", "carbon/helpers/strategym.py:dct", "carbon/helpers/strategym.py:dr", "carbon/helpers/strategym.py:drr", "carbon/helpers/strategym.py:filter_isnan"]}
{"id": "C82", "title": "Looking up curves in a container", "statement": "After any sequence of constructions and additions, with curves shared between containers: every curve in a container has an id, looking up an id finds the last curve with that id (None exactly if there is none), looking up a curve finds the last position of an equal curve, membership is equality with some held curve, and later actions only append to a container and never change a curve that has an id.", "quantifier": "all programs of constructions and additions over any number of containers and curves", "why_tests_cant": "Three dictionaries must stay consistent with the list over unbounded histories with shared mutable objects.", "anchors": ["carbon/tools/cpc.py:CPCContainer.__init__", "carbon/tools/cpc.py:CPCContainer.add", "carbon/tools/cpc.py:CPCContainer.bycid", "carbon/tools/cpc.py:CPCContainer.__contains__"]}
{"id": "C83", "title": "Automatic ids", "statement": "Distinct curves without id that are put into a new container and then added to it get exactly their positions as ids, and each is found by its id. Ids are not unique in general: an explicit id can equal an automatic one, which makes a curve unreachable by id.", "quantifier": "all lists of curves, split arbitrarily between construction and addition", "why_tests_cant": "Unbounded lists; the collision needs a particular mix.", "anchors": ["carbon/tools/cpc.py:CPCContainer.__init__", "carbon/tools/cpc.py:CPCContainer.add"]}
{"id": "C84", "title": "Price of a pair in a container", "statement": "price(b, q) of two different tokens is None exactly if no curve trades them; in the primary direction it is the arithmetic mean of the quotes of all curves of the pair, in the other direction the reciprocal of that, so the two directions are reciprocal; it is positive and lies between two of the quotes.", "quantifier": "all programs, all pairs of different tokens whose curves have positive k", "why_tests_cant": "Continuum of curves; unbounded containers.", "anchors": ["carbon/tools/cpc.py:CPCContainer.price", "carbon/tools/cpc.py:ConstantProductCurve.pp"]}
{"id": "C85", "title": "Selections from a container", "statement": "A copy has the same contents and changes no curve, and so does the container of any selection. bycids returns one curve per id in the order given and fails with KeyError exactly for a missing id that is not excluded; without ids it returns the curves not excluded, in order. bypair returns the curves of the pair (each twice for a pair of a token with itself), bypairs those of any of the pairs in either direction, in the order of the container, failing exactly for a malformed pair, bytknx and bytkny those with the token on the one side. tkns and pairs list the tokens and pairs of the curves once each; the token table lists per token the positions of its curves by side.", "quantifier": "all programs and all arguments", "why_tests_cant": "Unbounded containers and argument lists; order and multiplicity.", "anchors": ["carbon/tools/cpc.py:CPCContainer.copy", "carbon/tools/cpc.py:CPCContainer.bycids", "carbon/tools/cpc.py:CPCContainer.bypair", "carbon/tools/cpc.py:CPCContainer.bypairs", "carbon/tools/cpc.py:CPCContainer.tkns", "carbon/tools/cpc.py:CPCContainer.pairs", "carbon/tools/cpc.py:CPCContainer.tokentable"]}
{"id": "C86", "title": "Filtering pairs", "statement": "filter_pairs with All returns exactly the pairs that meet every condition, with Any those that meet at least one, each once; a condition is known by its name up to an optional suffix after an underscore; unknown conditions and modes are errors; without conditions the pairs are returned unchanged, and the pairs default to the primary pairs of the container.", "quantifier": "all collections of pairs and all lists of conditions", "why_tests_cant": "Unbounded lists of conditions, arbitrary token sets.", "anchors": ["carbon/tools/cpc.py:CPCContainer.filter_pairs"]}
{"id": "C87", "title": "Price estimates", "statement": "price_estimate(q, b) of different tokens is the average of the quotes, weighted by the square root of k, over the curves of the pair that are not at a boundary (within a millionth); ValueError, or None on request, exactly if there is no such curve; the estimate lies between two quotes; the product of the estimates in the two directions is at least 1 and equals 1 exactly if all the quotes agree; the estimate of a token in itself is 1. price_estimates is the table of these, quote tokens outside and base tokens inside; asked to raise, it raises ValueError exactly if an entry is missing.", "quantifier": "all programs and pairs, curves with positive k", "why_tests_cant": "Continuum of curves; the product inequality is a Cauchy inequality over unbounded lists.", "anchors": ["carbon/tools/cpc.py:CPCContainer.price_estimate", "carbon/tools/cpc.py:CPCContainer.price_estimates"]}
{"id": "C88", "title": "Carbon curves have no price estimate", "statement": "Every curve that from_carbon builds, and every curve as_cpc makes of an order with a price range, is at a boundary; hence a pair served by Carbon curves only never has a price estimate, although it has a price.", "quantifier": "all parameters for which the curve can be built; all containers", "why_tests_cant": "The exclusion follows from a formula, for every parameter.", "anchors": ["carbon/tools/cpc.py:CPCContainer.price_estimate", "carbon/tools/cpc.py:ConstantProductCurve.from_carbon", "carbon/tools/cpc.py:ConstantProductCurve.at_boundary"]}
{"id": "C89", "title": "Adding containers", "statement": "Adding one container to another appends its curves in order; adding a container that holds a curve to itself does not terminate.", "quantifier": "all containers; all numbers of steps", "why_tests_cant": "Non-termination cannot be observed by a test.", "anchors": ["carbon/tools/cpc.py:CPCContainer.add"]}
{"id": "C90", "title": "Concentration measures", "statement": "The Herfindahl index of n non-negative numbers with positive sum lies between 1/n and 1 and its inverse between 1 and n; it does not depend on the unit, is 1/n for equal numbers and 1 if all but one vanish. The relative range of non-negative numbers lies between 0 and 1 and is 0 exactly if all are equal.", "quantifier": "all lists of non-negative numbers", "why_tests_cant": "Inequalities over unbounded lists of reals.", "anchors": ["carbon/tools/cpc.py:AF"]}
{"id": "C91", "title": "Goal seek", "statement": "goalseek fails exactly when the function has the same strict sign at both ends; otherwise it ends after finitely many bisections. If the function is continuous and not zero at the left end, the number returned lies in the interval and within half of 1e-6 of a root. If the function vanishes at the left end and is positive beyond it, the number returned is at the right end instead, away from the root. An interval shorter than 1e-6 is answered by its midpoint.", "quantifier": "all continuous functions and all intervals", "why_tests_cant": "All functions; termination of a loop with floating bounds.", "anchors": ["carbon/tools/optimizer.py:OptimizerBase.goalseek"]}
{"id": "C92", "title": "Numerical differentiation and descent", "statement": "The difference quotients deriv and deriv2 equal the first and second derivative at some point within 1e-6 of the argument. Newton's search for an extremum finds the vertex of every parabola in one or more steps and reports an error on every line; asking the failed result for a number raises ValueError. Gradient descent and ascent on a parabola approach the vertex by the fixed factor 1 -/+ 2 a r per step, so they diverge when that factor exceeds 1 in size. posx and negx split a vector into its parts. The numerical Jacobian of an affine function is its matrix, for every step size.", "quantifier": "all differentiable functions, all parabolas, all vectors and affine maps", "why_tests_cant": "Statements about all functions and points (mean value theorem); unbounded number of steps.", "anchors": ["carbon/tools/optimizer.py:OptimizerBase.deriv", "carbon/tools/optimizer.py:OptimizerBase.deriv2", "carbon/tools/optimizer.py:OptimizerBase.findminmax_nr", "carbon/tools/optimizer.py:OptimizerBase.findmin_gd", "carbon/tools/optimizer.py:OptimizerBase.posx", "carbon/tools/optimizer.py:CPCArbOptimizer.jacobian"]}
{"id": "C93", "title": "The trade of a pool at a price", "statement": "dxdyfromp_f at a price p returns the one trade, among all those the pool can be part of, that takes the largest value p dx + dy out of the pool; every other possible trade takes strictly less. The value is never in favour of the pool and is zero only for no trade; one token goes in and the other out; the pool gives x at prices above its own and y below; the amounts are monotone in the price.", "quantifier": "all pools with k, x > 0 and actual reserves between 0 and the virtual ones; all positive prices", "why_tests_cant": "Optimality over a continuum of trades, with and without bounds.", "anchors": ["carbon/tools/cpc.py:ConstantProductCurve.dxdyfromp_f"]}
{"id": "C94", "title": "The simple optimizer", "statement": "For pools of one pair the totals at a price are those of trades of the pools that take the largest total value out at that price. With a target token the optimizer returns the totals of possible trades at a price within half of 1e-6 of a price whose trades need nothing of the other token and leave the pools with the least of the target that any trades which need nothing of the other token can leave. Without target it returns a bound on what such trades can extract. It always ends; the result is a price between 99% of the lowest and 101% of the highest quote, or AttributeError. Pools that all quote the same price (above 5e-5) always give AttributeError; pools that all quote below about 1e-6 always give the midpoint of the range. A target outside the pair is rejected.", "quantifier": "all non-empty lists of pools of one pair in any orientation, all prices", "why_tests_cant": "Optimality over a continuum of trades of unboundedly many pools.", "anchors": ["carbon/tools/optimizer.py:CPCArbOptimizer.simple_optimizer"]}
{"id": "C95", "title": "Self-financing constraints", "statement": "A set of constraints is accepted exactly if one and only one token is marked as the optimization variable (under any of its names) and all tokens are among the tokens given. Looking up a token gives its constraint, 0 if it has none, and fails for unknown tokens; a token is a constraint exactly if it is not the optimization variable. is_arbsfc holds exactly if every other constraint is 0. SelfFinancingConstraints.arb(t) knows the token t only; the SFC of an optimizer knows exactly the tokens of its curves.", "quantifier": "all dictionaries of constraints, all token sets", "why_tests_cant": "Unbounded dictionaries; characterisation in both directions.", "anchors": ["carbon/tools/optimizer.py:CPCArbOptimizer.SelfFinancingConstraints", "carbon/tools/optimizer.py:CPCArbOptimizer.SFC"]}
{"id": "C96", "title": "Trade instructions", "statement": "A trade instruction exists exactly if the amounts have opposite signs with the positive one in, or both are below 1e-8 and of the same sign, when they become 0; it never pays out without paying in. TradeInstruction.new accepts the two amounts in either order and gives the same instruction; it rejects a token against itself and amounts of the same sign. The two prices of an instruction are positive and reciprocal, and fail exactly for empty instructions.", "quantifier": "all tokens and amounts", "why_tests_cant": "All pairs of reals, including the boundary.", "anchors": ["carbon/tools/optimizer.py:CPCArbOptimizer.TradeInstruction"]}
{"id": "C97", "title": "Totals at given prices and duality", "statement": "The function whose root the marginal price optimizer seeks returns for each token other than the target the total over all pools of the best trades at the given prices (which are unique). These trades take the largest possible value out of the pools. Where all those totals vanish, the trades are an arbitrage: no other trades of the pools that need no other token extract more of the target; otherwise the excess of any such trades is at most the value of the totals.", "quantifier": "all lists of pools over any tokens in any orientation, all positive prices, every order in which python enumerates sets", "why_tests_cant": "Duality over a continuum of trades on unboundedly many pools and tokens; order of sets.", "anchors": ["carbon/tools/optimizer.py:CPCArbOptimizer.margp_optimizer"]}
{"id": "C98", "title": "The Newton iteration of the marginal price optimizer", "statement": "From positive start prices the iteration never fails: it performs Newton steps in the logarithms of the prices and stops after the first step shorter than eps, provided this is not in the last of maxiter rounds, and reports the prices and totals after that step (before it, if it is the first); else it reports that it did not converge. Constraints other than an arbitrage and targets not traded by any curve are rejected. Convergence is judged by the step only: for every amount there is a pool that offers no arbitrage and for which the optimizer reports a converged profit above that amount.", "quantifier": "all lists of pools, all start prices, tolerances, numbers of rounds, every linear solver that keeps the length", "why_tests_cant": "Unbounded number of rounds; every solver and set order.", "anchors": ["carbon/tools/optimizer.py:CPCArbOptimizer.margp_optimizer"]}
{"id": "C99", "title": "Results of the marginal price optimizer", "statement": "A converged result reports the totals of the best trades at the prices it reports, and is an arbitrage if the totals of all other tokens vanish. Its prices are positive, reciprocal and transitive; dxdyvalues lists these trades curve by curve; curves_new lists the curves after these trades, each resting at the price as far as it has tokens to sell; the trade instructions instruct these trades, one per curve that trades at all, and none twice. Minimal results answer none of these. Adjusting curves without amounts fails or returns None.", "quantifier": "all results of runs on all lists of pools", "why_tests_cant": "Unbounded lists, all prices.", "anchors": ["carbon/tools/optimizer.py:CPCArbOptimizer.MargpOptimizerResult", "carbon/tools/optimizer.py:CPCArbOptimizer.adjust_curves"]}
{"id": "C100", "title": "The problem posed to the convex solver", "statement": "In the problem of nofees_optimizer the feasible points are exactly the possible trades of the pools, in scaled tokens, with the prescribed totals; the objective is the scaled total of the target. With the constraints of SFC for an arbitrage its solutions are exactly the arbitrages. With the target token as a string argument no total of any other token is constrained, and the best points pay in other tokens where no arbitrage exists.", "quantifier": "all lists of pools, all positive token scales, all constraints", "why_tests_cant": "Characterisation of a feasible set in a continuum.", "anchors": ["carbon/tools/optimizer.py:CPCArbOptimizer.nofees_optimizer"]}
{"id": "C101", "title": "A simulation of strategies returns a complete result", "statement": "run_sim with strategies on one pair that have proper ranges, amounts that are not negative, at most one of marginal price and capacity per side and (if rescaled) no cash capacity, along positive prices, always succeeds. Every series has one entry per price, the marginal price series one per strategy; the amounts start with the totals of the rescaled strategies and never get negative; value is risk amount times price plus cash, hodl the same with the initial amounts.", "quantifier": "all non-empty lists of such strategies, all non-empty paths of positive prices, all shifts above -100%", "why_tests_cant": "The number of steps is unbounded and every step trades every curve: no division by zero, no missing value and no negative balance has to be shown for every reachable state.", "anchors": ["carbon/helpers/simulation.py:run_sim", "carbon/helpers/strategym.py:strategy.rescale_strat", "carbon/simulators/carbon_simulator.py:add_strategy", "carbon/carbon_order_ui.py:tradeto"]}
{"id": "C102", "title": "Strategies lose to arbitrage: the value never grows by more than the holdings do", "statement": "In each step of run_sim the value after the step is at most the value before it plus the risk amount held before it times the price change; hence the value at any date is at most the initial value plus the accumulated price gains of the amounts actually held.", "quantifier": "all simulable inputs, every step and every prefix of the path", "why_tests_cant": "An inequality along unboundedly many steps with real numbers; numerical examples show single instances only.", "anchors": ["carbon/helpers/simulation.py:run_sim", "carbon/carbon_order_ui.py:tradeto", "carbon/carbon_order_ui.py:selly"]}
{"id": "C103", "title": "Between the ranges a strategy is worth at least what holding is worth", "statement": "If m lies between the buy and the sell range of all strategies, the portfolio valued at m is never below its initial value at m; so whenever the price is back between the ranges, value >= hodl. While all prices are between the ranges nothing is traded at all and value = hodl. At prices up to the sell ranges the risk amount does not fall and the cash does not grow, at prices from the buy ranges up it is the other way round.", "quantifier": "all simulable inputs, all prices between the ranges, all dates", "why_tests_cant": "An invariant over all paths.", "anchors": ["carbon/helpers/simulation.py:run_sim"]}
{"id": "C104", "title": "Strategies of a portfolio do not influence each other", "statement": "The amounts and marginal prices that run_sim records at a date are those of each strategy entered and traded on its own through the prices up to that date; the result for a portfolio is the sum (the marginal prices: the concatenation) of the results of its parts.", "quantifier": "all simulable portfolios, all ways of splitting them, all dates", "why_tests_cant": "Non-interference for every number of strategies and every path.", "anchors": ["carbon/helpers/simulation.py:run_sim"]}
{"id": "C105", "title": "After each price nothing is left on offer at that price", "statement": "For a strategy that does not buy above the prices it sells at: after trading to a price less than 1e-10 tokens are on offer at that price or better on either curve; trading to the same price again changes nothing, so a repeated price leaves amounts and marginal prices as they are; from the upper end of the sell range on, or the lower end of the buy range down, less than 1e-10 tokens are left.", "quantifier": "all such strategies, all positive paths, all prices", "why_tests_cant": "Quantifies over all amounts that could still be sold in all reachable states.", "anchors": ["carbon/helpers/simulation.py:run_sim", "carbon/carbon_order_ui.py:tradeto"]}
{"id": "C106", "title": "Only the extreme price matters while one side is idle", "statement": "On a path that stays at or above the buy range the amounts at the end are those of a single trade to the highest price (risk within 1e-10, cash within 1e-10 times that price), and the cash received is exactly what the curve asks for the risk tokens sold; on a path that stays at or below the sell range the same holds with the lowest price and the roles exchanged.", "quantifier": "all strategies that can be entered, all such paths", "why_tests_cant": "Path independence over all paths.", "anchors": ["carbon/helpers/simulation.py:run_sim", "carbon/carbon_order_ui.py:tradeto", "carbon/carbon_order_ui.py:dxfromdy_f"]}
{"id": "C107", "title": "What makes a simulation fail", "statement": "run_sim raises IndexError without a strategy, ValueError for strategies on different pairs and for paths without a positive price; a path that starts with a price that is not positive is treated as if all such prices were missing, but a zero price after a positive first one ends the simulation with ZeroDivisionError. A sell range of one price is accepted and raises ZeroDivisionError as soon as the price reaches it. A strategy with marginal price and capacity on one side, or a capacity below its amount, raises AssertionError; because rescaling multiplies the cash capacity but not the cash, this happens to strategies that are consistent as given.", "quantifier": "all strategies, paths and shifts in the stated classes", "why_tests_cant": "Each class is infinite and the failure may be arbitrarily far down the path.", "anchors": ["carbon/helpers/simulation.py:run_sim", "carbon/helpers/strategym.py:strategy.rescale_strat", "carbon/simulators/carbon_simulator.py:add_order"]}
{"id": "C108", "title": "Encoding an order for the contract keeps the amounts and the price range", "statement": "EncodedOrder.encode with amount y, capacity z (default y) and prices 0 <= lo <= hi gives y and z rounded down, and the decoded order has end price b^2 and start price (b+a)^2 where b is at most sqrt(lo) and b+a at most sqrt(hi), each less than a relative 2^-45 plus an absolute 2^-47 below it; without capacity the encoding is the one of the reference implementation for a full order. A negative price raises ValueError; swapped prices are accepted but reading A_ or p_start raises ValueError; an order whose end price is zero cannot be described (ZeroDivisionError).", "quantifier": "all amounts, capacities and prices", "why_tests_cant": "Rounding bounds over all rationals and all exponents of the encoding.", "anchors": ["carbon/sdk/carbonsdk.py:EncodedOrder.encode", "carbon/sdk/carbonsdk.py:EncodedOrder.decode", "carbon/sdk/carbonsdk.py:EncodedOrder.descr", "benchmark/core/trade/impl.py:encodeOrder"]}
{"id": "C109", "title": "The marginal price of an encoded order", "statement": "encode refuses a marginal price together with a capacity; with a marginal price at or above the start price it encodes a full order; with any lower one it encodes the capacity -y(hi-lo)/(hi-p), which is negative (so the order is never within its capacity) and, for y >= 1, reading p_marg raises NotImplementedError. p_marg of an order is the start price iff full, the end price when empty and raises otherwise. encode_yzAB raises TypeError on floats and takes integers A, B as if they were already scaled by 2^48; a missing token becomes the text None.", "quantifier": "all orders, amounts and prices", "why_tests_cant": "Continuum of prices.", "anchors": ["carbon/sdk/carbonsdk.py:EncodedOrder.encode", "carbon/sdk/carbonsdk.py:EncodedOrder.encode_yzAB", "carbon/sdk/carbonsdk.py:EncodedOrder.p_marg"]}
{"id": "C110", "title": "Tokens and token containers", "statement": "A token has its ticker stripped in upper case and its address stripped in lower case, and must have a hexadecimal address; a container accepts a list iff it has as many different tickers as addresses; lookup by ticker or address ignores case and gives the last token with it, else KeyError, NULTKN or None; with unique tickers and addresses every token is found under both; containsall is exact about case; restore fails for every string and hash for every container. With repeated tickers a container can be accepted in which lookup by address and lookup by ticker disagree.", "quantifier": "all lists of tokens and all strings", "why_tests_cant": "Unbounded lists and strings.", "anchors": ["carbon/sdk/sdktoken.py:SDKToken", "carbon/sdk/sdktoken.py:TokenContainer"]}
{"id": "C111", "title": "Amounts in wei, big numbers, names, paths and call modes", "statement": "w2t followed by t2w is the identity on integers, t2w rounds down by less than one unit, both raise TypeError without decimals; a number written as BigNumber is read back as its integer part, other values are unchanged; c2s followed by s2c is the identity on names of letters that start in lower case (but not with digits); join puts exactly one slash between url and path if each has at most one there (IndexError if one is empty); call reads the answer according to the endpoint it used unless the default is synchronous and sync is not given.", "quantifier": "all amounts, integers, names and strings", "why_tests_cant": "Unbounded strings and numbers.", "anchors": ["carbon/sdk/sdktoken.py:SDKToken.w2t", "carbon/sdk/sdktoken.py:SDKToken.t2w", "carbon/sdk/sdkbase.py:bn2int", "carbon/sdk/sdkbase.py:int2bn", "carbon/sdk/sdkbase.py:c2s", "carbon/sdk/sdkbase.py:s2c", "carbon/sdk/sdkbase.py:join", "carbon/sdk/sdkbase.py:call"]}
{"id": "C112", "title": "Market data of a pair", "statement": "For a pair of two different listed tokens: the bid range runs from the highest to the lowest rate at which the AMM sells the quote token, the ask range from the inverse of the highest to the inverse of the lowest rate at which it sells the base token; lastBid <= bestBid, bestAsk <= lastAsk, and the market is inverted iff the product of the two best rates exceeds 1; mid, spread and the interpolations are as named; liquidity is in the token sold; depth is asked at the rate itself (bid) or its inverse (ask), a zero rate raises ZeroDivisionError, in a list TypeError; the ask range raises ZeroDivisionError if one of its rates is zero; a token that is not in the pair (upper case) raises AttributeError. The flag inverted of a range is set exactly when its prices are not inverted.", "quantifier": "all servers with positive ordered rates, all pairs, all rates and lists", "why_tests_cant": "Quantifies over all answers of the server.", "anchors": ["carbon/sdk/carbonsdk.py:mGetRangeByPair", "carbon/sdk/carbonsdk.py:mGetLiquidityByPair", "carbon/sdk/carbonsdk.py:mGetRateLiquidityDepthByPair", "carbon/sdk/carbonsdk.py:mGetMarketByPair", "carbon/sdk/carbonsdk.py:mHasLiquidityByPairs", "carbon/sdk/carbonsdk.py:Market"]}
{"id": "C113", "title": "Creating strategies and preparing trades", "statement": "mCreateStrategy sorts the two ranges, raises ValueError iff the sell range does not lie strictly above the buy range, and otherwise sends the sorted prices and the budgets unchanged; the pair given does not matter, the strategy is always on ETH and USDC. mPrepareTrade asks for a trade with the token bought as target, by target amount iff BUY; an invalid side, foreign token or nonpositive amount raises ValueError, as do tokens missing from the global container whatever container the object has. mComposeTradeTransaction bounds input or return by the relative deviation, 10% by default.", "quantifier": "all pairs, prices, amounts and containers", "why_tests_cant": "Quantifies over all inputs; the pair is ignored for every pair.", "anchors": ["carbon/sdk/carbonsdk.py:mCreateStrategy", "carbon/sdk/carbonsdk.py:mPrepareTrade", "carbon/sdk/carbonsdk.py:mComposeTradeTransaction"]}
{"id": "C114", "title": "Strategies of a user", "statement": "mGetUserStrategies returns, in order, every strategy with lower case addresses, the names of its tokens (address if unknown) and prices, budgets and orders unchanged, provided that in every strategy the encoded orders are in the order base, quote (ignoring case); otherwise it raises AssertionError for the whole list.", "quantifier": "all containers and lists of strategies", "why_tests_cant": "Unbounded lists.", "anchors": ["carbon/sdk/carbonsdk.py:mGetUserStrategies", "carbon/sdk/carbonsdk.py:Strategy", "carbon/sdk/carbonsdk0.py:reformatStrategy"]}
{"id": "C115", "title": "Grids of trade sizes and missing results in order books", "statement": "linspace0(xmax, n) for n >= 1 has n+1 points: the first is eps, the last (1-eps2)*xmax, the others i*xmax/n; it is increasing exactly if eps < xmax/n and eps2*n < 1, so not for every positive xmax; n = -1 raises IndexError and smaller n ValueError. An order book built from sizes and results of which the last ones are missing keeps exactly the sizes that have a result and knows its side and the unit of its prices; another side raises ValueError. A missing result in the middle shifts all later results to other sizes.", "quantifier": "all maximal amounts, numbers of points, epsilons, lists of sizes and results", "why_tests_cant": "Unbounded lists and all rational parameters.", "anchors": ["carbon/simulators/sim_analytics.py:Analytics.linspace0", "carbon/simulators/sim_analytics.py:Analytics.truncate", "carbon/simulators/sim_analytics.py:OrderBook.__init__"]}
{"id": "C116", "title": "Prices and liquidity of an order book", "statement": "For an order book with sizes src and results trg (the sizes distinct where divided): price i is trg_i/src_i, marginal price i the slope of trg over src, the reverse prices are the reciprocals; marginal prices times size differences add up to the total change of trg; liquidity times price differences add up to the difference of the average of the last two and the average of the first two results, and if two neighbouring marginal prices are equal the sum is NaN; if sizes and results increase and prices get worse, every liquidity is positive and its price lies strictly between two neighbouring marginal prices. A sum of products counts NaN as zero and raises ValueError for vectors of different lengths.", "quantifier": "all books of any length", "why_tests_cant": "Sums over unbounded vectors.", "anchors": ["carbon/simulators/sim_analytics.py:OrderBook.prices", "carbon/simulators/sim_analytics.py:OrderBook.marg_prices", "carbon/simulators/sim_analytics.py:OrderBook.dmarg_prices", "carbon/simulators/sim_analytics.py:OrderBook.ob_liquidity", "carbon/simulators/sim_analytics.py:Analytics.vecdot"]}
{"id": "C117", "title": "Simulated trades do not change the simulator's orders", "statement": "simulate_trades returns, for amm_sells_tknb, the quote token amount of a recorded but not executed trade in which the AMM sells the given amount of base token, for amm_buys_tknb the amount it pays, and None exactly when the trade is not recorded; the orders are unchanged, only the trade counter and the log grow; hence a list of simulated trades gives for every size the result of that trade alone. A negative size is simulated as the opposite trade; a wrong side, a pair that is not a CarbonPair or no pair and no own simulator raise ValueError; without a pair the argument sim is ignored.", "quantifier": "all simulators in all states, all sizes and lists of sizes", "why_tests_cant": "Quantifies over all states of the simulator.", "anchors": ["carbon/simulators/sim_analytics.py:Analytics.simulate_trades"]}
{"id": "C118", "title": "Effective prices of simulated trades", "statement": "effective_price with a token and a pair returns the price of the simulated trade, and if it fails 10^100 for amm_buys and 0 for amm_sells; the orders are unchanged. It never returns a price for the constants named BID and ASK in the module (they are redefined for simulate_trades), nor without a pair.", "quantifier": "all simulators in all states, all sizes, tokens and pairs", "why_tests_cant": "Quantifies over all states of the simulator.", "anchors": ["carbon/simulators/sim_analytics.py:Analytics.effective_price"]}
{"id": "C119", "title": "Liquidity charts of sets of curves", "statement": "calc_liquidity_approx over an increasing price grid gives one bar per interval at its midpoint; the bar times the width of the interval is the value of the curves on that side in the interval: the part of each holding proportional to the overlap of the curve's range, converted at the geometric mean of the overlap if the other token is asked for; in the token sold the bars add up to the holdings within the grid, and to the total holdings if the grid covers all ranges. Zeros become None iff purgezero. Two equal neighbouring prices raise if a curve is on the ask side.", "quantifier": "all sets of curves, grids, pairs and flags", "why_tests_cant": "Sums over unbounded sets of curves and grids of real numbers.", "anchors": ["carbon/simulators/sim_analytics.py:OrderBook.calc_liquidity_approx", "carbon/carbon_order_ui.py:liquidity_approx"]}
{"id": "C120", "title": "Strategies read from the SDK", "statement": "from_SDK returns two curves on the same pair: one sells the base token between the (rounded) sell prices with the sell budget as capacity, the other sells the quote token between the buy prices with the buy budget as capacity, and each holds the fraction y/z of its capacity given by the encoded order of its token, whichever order the encoded tokens have; encoded tokens that differ from base and quote raise ValueError, a zero z raises ZeroDivisionError. The tokens are named by looking the address up among the tickers, so a token whose address is in the container is shown with a placeholder.", "quantifier": "all strategies, token containers and numbers of digits", "why_tests_cant": "Quantifies over all strategies; prices are real numbers.", "anchors": ["carbon/carbon_order_ui.py:from_SDK"]}
{"id": "C121", "title": "Rounding to significant digits", "statement": "roundsd returns a multiple of 10^(m+1-n) if x has magnitude m <= n and of 10^(m-n) else, as near to x as possible (ties to the even multiple); rounding twice changes nothing (n >= 1); no number of digits, zero and negative numbers leave x unchanged. So with m > n one digit more than asked for is kept.", "quantifier": "all real numbers and all numbers of digits", "why_tests_cant": "All real numbers, with values crossing a power of ten when rounded.", "anchors": ["carbon/carbon_order_ui.py:roundsd"]}
{"id": "C122", "title": "Parameters for the contract", "statement": "yzABS gives y and z in the smallest unit of the token sold, A and B as the largest integers not above S and B times sqrt(10^(decy-decx)) * 2^sx, and S = 2^sx; the square root of the price that the contract computes from them is at most that of the curve in the smallest units and less by less than 2/2^sx; without decimals it raises ValueError.", "quantifier": "all curves, decimals and scaling exponents", "why_tests_cant": "Quantifies over all real curves and all exponents.", "anchors": ["carbon/carbon_order_ui.py:yzABS"]}
{"id": "C123", "title": "Gaussian bridges", "statement": "gaussian_bridge(a,b,sig,n) with n>0 segments returns n+1 points (not n+2): the i-th is the point of the line from a to b plus sig*(a+b)/2*sqrt(1/n) times (W_i - i/n W_n), W the random walk of the numbers drawn; it starts at a and ends at b. n=0 gives [a,b]; a negative n or a negative sig*(a+b) raises ValueError, b=0 fails an assertion. Positive ends do not keep the path positive.", "quantifier": "all ends, volatilities, numbers of segments and all sequences of random numbers", "why_tests_cant": "The outcome is random: a test sees single draws.", "anchors": ["carbon/helpers/pathinterpolation.py:PathInterpolation.gaussian_bridge"]}
{"id": "C124", "title": "Interpolated paths contain the original path", "statement": "interpolate of a path of at least two positive prices: if the period is not longer than any time step, all points of the path are kept in order, the ends are the same, and every new time step is between 3/4 and 3/2 of the period; for any period exactly the points followed by a step shorter than the period are dropped, the last point stays, and the number of points is one plus the sum of the rounded numbers of periods; new points lie between two neighbours of the path, without volatility on the line between them. A period longer than every step leaves only the last point (the message says that the original is returned). enable=False returns the path; sigfctr only counts if sig is estimated; two points have zero estimated volatility; less than two points raise.", "quantifier": "all paths, periods, volatilities and random numbers", "why_tests_cant": "Unbounded paths with arbitrary time steps and random numbers.", "anchors": ["carbon/helpers/pathinterpolation.py:PathInterpolation.interpolate", "carbon/helpers/pathinterpolation.py:PathInterpolation.interpolate_segment"]}
{"id": "C125", "title": "Estimated volatility", "statement": "estimate_vol_np returns the population standard deviations of the differences and of the log differences divided by the square root of the time step; multiplying the path by k>0 multiplies the first by k and leaves the second; k times the time divides both by sqrt(k); the first is zero iff the path is an arithmetic, the second iff it is a geometric progression. One point raises ZeroDivisionError, a negative time ValueError, an empty series IndexError.", "quantifier": "all positive paths of any length and all times", "why_tests_cant": "Invariance over all paths and factors.", "anchors": ["carbon/helpers/pathinterpolation.py:PathInterpolation.estimate_vol_np", "carbon/helpers/pathinterpolation.py:PathInterpolation.estimate_vol"]}
{"id": "C126", "title": "Generated paths", "statement": "A generator with N steps gives N+1 prices: the first is s0, the i-th is s0*exp((mu-sig^2/2) t_i + sig sqrt(dt) W_i), all are positive if s0 is; the times are i*dt with dt=time/N, the dates the same in days of a 365.25 day year. N=0 raises ZeroDivisionError, a negative time step or volatility ValueError.", "quantifier": "all parameters and all sequences of random numbers", "why_tests_cant": "The outcome is random: a test sees single draws.", "anchors": ["carbon/helpers/pathgenerator.py:PathGenerator.__init__", "carbon/helpers/pathgenerator.py:PathGenerator.path"]}
{"id": "C127", "title": "The window read from a stored series", "statement": "pdread keeps exactly the rows not before min_dt whose time is in the window: it starts at from_ts (or at the fraction from_pc of the remaining time) but not before the first remaining row, and lasts period_days (or the fraction period_pc), else to the end; a start before the data is moved to the first row and the window keeps its length. A column is found by its name (the first of that name) or by its position, from the end if negative; invert gives reciprocals and swaps the tokens. Both forms of start or length raise ValueError, as does invert without column; unknown names raise KeyError, positions out of range IndexError, no remaining rows IndexError (ValueError if both forms of length are given, or both forms of start and no fraction as length).", "quantifier": "all stored frames, windows and columns", "why_tests_cant": "Quantifies over all series and all combinations of arguments.", "anchors": ["carbon/helpers/pdread.py:pdread", "carbon/helpers/pdread.py:tknpair", "carbon/helpers/pdread.py:pathtime_days", "carbon/helpers/pdread.py:pathtime_yrs"]}
{"id": "C128", "title": "Lists of coins and pairs", "statement": "unjoin splits a string at every separator (as many parts as separators plus one) and strips each part, so it undoes join for every non-empty list of trimmed names without commas; for the empty list it gives [''] instead. A pair string is accepted iff it has exactly one slash and then the two conversions are inverse to each other, otherwise TypeError. create_pairs lists exactly the pairs of different coins of the two lists, each once if the coins are distinct, n(n-1) of them for one list.", "quantifier": "all lists of coins and all strings", "why_tests_cant": "Quantifies over all strings and lists.", "anchors": ["carbon/helpers/cryptocompare.py:CryptoCompare.join", "carbon/helpers/cryptocompare.py:CryptoCompare.unjoin", "carbon/helpers/cryptocompare.py:CryptoCompare.pt_from_pair", "carbon/helpers/cryptocompare.py:CryptoCompare.create_pairs", "carbon/helpers/cryptocompare.py:CryptoCompare.coinlist"]}
{"id": "C129", "title": "The cache of query results", "statement": "A stored item is returned without any query and nothing changes. On a miss with exceptions enabled: without flags OSError; with readonfail exactly one query whose result is returned and nothing is written; with updateonfail exactly one query whose result is returned and can be read back, all other items unchanged, or OSError if the cache cannot be written. With exceptions disabled a miss gives None without query whatever the flags. The named accesses (all exchanges, coins, indices) ignore their flags and never write.", "quantifier": "all states of the cache, items, answers and flags", "why_tests_cant": "States of a file system and of a server.", "anchors": ["carbon/helpers/cryptocompare.py:CryptoCompare.cache", "carbon/helpers/cryptocompare.py:CryptoCompare.cache_xxx", "carbon/helpers/cryptocompare.py:CryptoCompare.write_cache"]}
{"id": "C130", "title": "Queries", "statement": "The key comes from the argument, else from the environment (RuntimeError if not set), ValueError if of another type. A query goes to the base url plus the endpoint with all parameters that are not None and the key; only GET is accepted. Histories exist for day, hour and minute only, with coin usd and limit 2000 by default; an error reported by the server raises RuntimeError (or gives None), rows carry open, close, high, low and both volumes under their time; a failed request raises AttributeError instead of RuntimeError and aspandas=False TypeError. aggr_query sends one request per pair and stores the answers under the names of the pairs; exchange, limit and time are ignored.", "quantifier": "all servers, keys, parameters and lists of pairs", "why_tests_cant": "The server is outside the code; tests need the network.", "anchors": ["carbon/helpers/cryptocompare.py:CryptoCompare.__init__", "carbon/helpers/cryptocompare.py:CryptoCompare.query", "carbon/helpers/cryptocompare.py:CryptoCompare.query_freqlypair", "carbon/helpers/cryptocompare.py:CryptoCompare.aggr_query"]}
{"id": "C131", "title": "Check boxes", "statement": "A check box manager has one box per choice, initially as given (one value for all, one each, default unchecked); arguments of the wrong length raise ValueError. After any sequence of changes every box shows the last value it was given. If the identifiers are distinct, checked and unchecked list exactly the identifiers of the (un)checked boxes in the order of the choices; of boxes sharing an identifier the last counts. objects() gives the objects at the positions of the (un)checked boxes, together one per choice. A manager made from a dict gives back that dict.", "quantifier": "all choices, values, objects and all sequences of changes", "why_tests_cant": "Arbitrary sequences of user actions.", "anchors": ["carbon/helpers/widgets.py:CheckboxManager.__init__", "carbon/helpers/widgets.py:CheckboxManager.checked", "carbon/helpers/widgets.py:CheckboxManager.objects", "carbon/helpers/widgets.py:CheckboxManager.from_idvdct"]}
{"id": "C132", "title": "Percentage sliders", "statement": "Every slider starts at the given value moved into its range (0..1, -1..1 with pm, or as given) and after any sequence of moves every value is within the range; a move changes one value only, to the target moved into the range. pm together with range, a single value outside 0..1 (even with pm) and values, flags or pm of the wrong length raise ValueError; bounds out of order raise TraitError; a wrong number of ranges raises IndexError or TraitError instead of ValueError. Without range the range attribute is an exhausted generator. Without names there are no sliders, whatever the ranges.", "quantifier": "all choices, values, ranges and all sequences of moves", "why_tests_cant": "Invariant over arbitrary sequences of user actions.", "anchors": ["carbon/helpers/widgets.py:PcSliderManager.__init__", "carbon/helpers/widgets.py:PcSliderManager.values", "carbon/helpers/widgets.py:PcSliderManager.values_dct"]}
{"id": "C133", "title": "Dropdowns", "statement": "The initial entry is the one at the default index (default 0), or the first one with the default value; whatever is selected or assigned afterwards, the result is one of the options with its own label. Both defaults, or labels given twice, raise ValueError, as does a negative index; an index beyond the options (or the labels) and a value that is not among them raise TraitError.", "quantifier": "all options, labels, defaults and all sequences of selections", "why_tests_cant": "Arbitrary sequences of user actions.", "anchors": ["carbon/helpers/widgets.py:DropdownManager.__init__", "carbon/helpers/widgets.py:DropdownManager.result"]}
{"id": "C134", "title": "Directory listings", "statement": "listdir returns a sorted list that does not depend on the order in which the system lists the files: all names, or the names ending in the extension (in any case) without it, one entry for each such file and none for others. An empty extension lists nothing. The listed name plus extension need not be a file and names can occur twice if extensions differ in case.", "quantifier": "all directories and extensions", "why_tests_cant": "The order of os.listdir is unspecified.", "anchors": ["carbon/helpers/helpers.py:listdir"]}
{"id": "C135", "title": "Loading what was saved", "statement": "Saving changes only the named file. Bytes and (if the libraries invert each other) json data, compressed or not, come back unchanged; text comes back with newlines normalised, so unchanged iff it has no carriage return; compressed text comes back as bytes. Wrappers are applied by both directions. yaml raises AssertionError, missing files OSError; data of a wrong type raises TypeError after the file was emptied, when compressed AttributeError before. Names are joined as os.path.join does.", "quantifier": "all file systems, data, names and flags", "why_tests_cant": "Quantifies over all contents and states of the file system.", "anchors": ["carbon/helpers/fls.py:fsave", "carbon/helpers/fls.py:fload"]}
{"id": "C136", "title": "Comparisons in tests", "statement": "For a number iseq tells whether the first other argument is within the relative tolerance (absolute if the number is 0) and ignores all further arguments; for other values whether all are equal; without arguments ValueError. raises returns False iff the call returns, else the message, which is false if empty; exits are not caught.", "quantifier": "all numbers, tolerances and outcomes", "why_tests_cant": "Tests rely on these functions.", "anchors": ["carbon/helpers/stdimports.py:iseq", "carbon/helpers/stdimports.py:raises"]}
{"id": "C137", "title": "Orders read from files", "statement": "From a json file the first num_curves records (default 10, all if not positive) are read and each gives the order it describes: B, S, the balance, the capacity (default the balance) and the prices B^2 and (B+S)^2 in order; with floor division B and S are made from the integer parts of the roots of the prices times 2^32. The first faulty record among those read raises TypeError (null) or AssertionError (missing), later records do not matter. The nix format lists prices and capacity of each order. Any csv file with a row raises; other types give nothing.", "quantifier": "all contents of files, numbers and flags", "why_tests_cant": "Quantifies over all files.", "anchors": ["carbon/routers/base_router.py:BaseRouter.make_orders_from_file"]}
{"id": "C138", "title": "How close rescaled integer quotes are to the exact curve", "statement": "When no checked intermediate value exceeds 256 bits (products may, they are then rescaled), tradeByTargetAmount asks less than 4 units above the exact price, and tradeBySourceAmount pays at least the exact amount e less 4 + e^2/(yA+zB) units; buying back what a quote pays costs at most 3 units more than was paid in. If z*2^48, yA+zB or (by source) (yA+zB)x exceeds 256 bits the order pays nothing, or asks 2^128-1. The loss is not bounded by a constant and the quotes are not monotone: one more unit in can give 549755813885 units less.", "quantifier": "all orders and amounts", "why_tests_cant": "The rescaling regime needs numbers near 2^256; the bound is over all of them.", "anchors": ["benchmark/core/trade/impl.py:tradeBySourceAmount", "benchmark/core/trade/impl.py:tradeByTargetAmount", "benchmark/core/trade/impl.py:mulDivF", "benchmark/core/trade/impl.py:mulDivC"]}
{"id": "C139", "title": "Prices between tokens along shortest paths", "statement": "On a graph of connections the price between two tokens is the product of the average edge prices along a path with as few edges as possible, and RuntimeError (NetworkXNoPath) if there is no path; joined tokens have exactly the average price of the edges between them, a token costs one in units of itself, and where some values price all edges the price is their ratio whatever the path. Graphs of amounts are refused. With units, two equal names raise AttributeError.", "quantifier": "all graphs, tokens and shortest-path searches", "why_tests_cant": "Tests look at a few small graphs; the search may return any shortest path.", "anchors": ["carbon/tools/arbgraphs.py:ArbGraph.price", "carbon/tools/arbgraphs.py:ArbGraph.shortest_path", "carbon/tools/arbgraphs.py:ArbGraph.ptransport"]}
{"id": "C140", "title": "Price tables are consistent iff there is no arbitrage", "statement": "The price table holds in row i and column j the price of i in units of j; a missing path among the nodes means an error. The table of a graph made of pools satisfies P(i,j)P(j,k)=P(i,k) for all nodes iff some values of the tokens price every pool (no arbitrage); it exists iff the pools hang together. A round trip over joined tokens never loses and breaks even only if the pools between them agree. Excluded names (rather than nodes) have no effect and included names are an error. On other graphs a table may be consistent despite an arbitrage.", "quantifier": "all lists of pools, all graphs", "why_tests_cant": "An equivalence over all pools; the docstring claims one direction.", "anchors": ["carbon/tools/arbgraphs.py:ArbGraph.pricetable", "carbon/tools/arbgraphs.py:ArbGraph.price", "carbon/tools/arbgraphs.py:ArbGraph.add_edges_cpc"]}
{"id": "C141", "title": "Matrices, degrees and connectivity of arbitrage graphs", "statement": "The adjacency matrix is 1 exactly where there is an edge (undirected: in either direction). The Laplacian is symmetric, -1 where nodes are joined, with the number of other joined nodes on the diagonal, rows summing to zero and a quadratic form that is nowhere negative. In- and out-degrees count distinct neighbours and sum to the number of directed pairs, degrees to twice the number of joined pairs. is_weakly_connected tells whether all nodes can be reached from each other ignoring directions, iff only constants are in the kernel of the Laplacian; on an empty graph it raises. Weighted graphs and degree matrices raise.", "quantifier": "all graphs", "why_tests_cant": "Quantifies over all graphs and all vectors.", "anchors": ["carbon/tools/arbgraphs.py:ArbGraph.as_graph", "carbon/tools/arbgraphs.py:ArbGraph.A", "carbon/tools/arbgraphs.py:ArbGraph.L", "carbon/tools/arbgraphs.py:ArbGraph.degree", "carbon/tools/arbgraphs.py:ArbGraph.is_weakly_connected"]}
{"id": "C142", "title": "Tables of edges", "statement": "The consolidated table of a graph of amounts has one row per ordered pair of tokens with an edge, sorted, holding the sums of the amounts; column totals are those of the edges. That of a graph of connections with edges in both directions (such as any made of pools) has one row per pair in its primary direction, alphabetically, with the weights in both directions and the average price in the primary one. Without consolidation every edge of connections has a row with its price in the primary direction of its pair. Where a pair is joined in one direction only, reverse weights are shown against the wrong pair. Empty tables raise KeyError, connections without weight ZeroDivisionError.", "quantifier": "all graphs and selections of edges", "why_tests_cant": "Alignment of two sorted tables must hold for all sets of pairs.", "anchors": ["carbon/tools/arbgraphs.py:ArbGraph.edgedf"]}
{"id": "C143", "title": "Running many cycles", "statement": "As a tuple the results of the cycles in order, or the first error; lazily what each run gives. As dictionaries or tables there is always an error once there is a cycle (TypeError if it runs). One token is used for all cycles; a list of tokens has no effect except ValueError unless any token is allowed.", "quantifier": "all graphs, lists of cycles, tokens and formats", "why_tests_cant": "Quantifies over all lists of cycles.", "anchors": ["carbon/tools/arbgraphs.py:ArbGraph.run_arbitrage_cycles", "carbon/tools/arbgraphs.py:ArbGraph.run_arbitrage_cyclesf"]}
{"id": "C144", "title": "Tables of trade instructions account for every token", "statement": "For any non-empty list of trade instructions, the raw table has one row per instruction, in order, labelled by the curve's id, with its pair, pretty pair and the two tokens, and one column per token named by some instruction (each once); a row shows the amount received under the token received, the negative amount paid under the token paid, and nothing elsewhere. The pretty table is the same with blanks for the missing cells. The aggregated table has the token columns only and three more rows: AMMIn is the total the curves receive of each token, AMMOut minus the total they pay, TOTAL NET the difference. For a converged result of the marginal price optimizer the TOTAL NET row is the result's own net amount of every token (tokens without a column net to zero) and, under the target token, the result's value; a result without trades gives an empty table. No format or 'objects' returns the instructions, 'dicts' their five fields; unknown formats raise ValueError, except that any format beginning with 'df' gives an empty table for no instructions. Tokens called cid, pair, pairp, tknin or tknout get no column of their own in the aggregated table, so that what is traded of them is missing from it.", "quantifier": "all instructions (two tokens, amount in not negative, amount out not positive), all ids and pairs, all formats, all converged results on proper pools", "why_tests_cant": "Tests tabulate a few instructions; that the bottom line equals the optimizer's own account for every result needs a proof.", "anchors": ["carbon/tools/optimizer.py:1408-1416", "carbon/tools/optimizer.py:1517-1576"]}
{"id": "C145", "title": "Results of the convex and the simple optimizer are carried out by their instructions", "statement": "A scaled variable is accepted exactly if a list of scales, and a list of tokens, has as many entries as the variable has values (else ValueError), and its value is the raw value divided by the scale, entry by entry; without a raw value the value is missing, and asking for instructions raises TypeError. The convex optimizer's instructions are, for values that are opposite in sign or both zero on each curve, exactly one per curve that trades, paying in what the curve receives and taking out what it gives; a value that is not, and not tiny, raises ValueError. The table of trades per curve shows for each curve its state, the ratio of the product after the trade to k, and the traded amounts under its two tokens; its total row holds the net amount of each token and nothing else, except that with inclk=True it also adds up the products after the trades and their ratios to k (for two curves on their invariants the 'total' of the ratio is 2). The simple optimizer's instructions carry out trades on the given curves (inverted ones in their own orientation) that the curves allow and whose net amounts are the optimizer's sums, the result being their net amount of the target token; without curves asking for instructions raises IndexError.", "quantifier": "all scales, values, lists of curves and trades; all results of the simple optimizer on proper pools of one pair", "why_tests_cant": "Correspondence between solver variables, curves behind inverters and instructions for every list of curves; the wrong total appears only with an option that no test uses.", "anchors": ["carbon/tools/optimizer.py:78-122", "carbon/tools/optimizer.py:396-471", "carbon/tools/optimizer.py:848-931"]}
{"id": "C146", "title": "Decimals of a pair", "statement": "set_decimals stores for each token the number given, else the one a dict has under the upper-case token, else None, whatever was stored before. The table of decimals of a pair of two different tokens (not named like its own extra entries) lists base and quote token and the same numbers again as _TKNB and _TKNQ, and _DIFFQB, which is quote minus base and None unless both are numbers. has_decimals holds exactly if neither is None. A pair made from a pair keeps the decimals and forgets the original spelling; the reversed pair has none. from_slashpair accepts exactly the strings with one slash, reads the tokens around it in upper case without surrounding blanks, and never returns a pair with decimals: the tuple it is given ends up as the decimals of the base token. The price convention of a pair names the quote token per base token.", "quantifier": "all pairs, numbers, dicts and strings", "why_tests_cant": "Tests set decimals on one or two pairs; that from_slashpair loses the decimals for every argument shows only when decimals are used.", "anchors": ["carbon/pair.py:87-133", "carbon/pair.py:216-232", "carbon/pair.py:80-85", "carbon/pair.py:304-309"]}
{"id": "C147", "title": "Adding a strategy of the SDK to the simulator", "statement": "Every strategy that from_SDK can read (its two names different and kept by pairs) and whose rounded buy prices are not both zero can be added to any simulator: add_fromsdk appends exactly two orders under the next two ids, linked to each other, with the id of the strategy, on the pair from_SDK chose, and the two curves shown for them are exactly the two curves from_SDK returns, the selling one first. If from_SDK raises, or both buy prices are zero (AttributeError), nothing changes. Whatever happens, no order is lost, changed or renumbered and at most two are added. Strategies whose token addresses are not tickers all end up on the one pair TKNB/TKNQ.", "quantifier": "all token containers, strategies, numbers of significant digits and simulator states", "why_tests_cant": "The prices pass through a reciprocal, a square root, a square and back for every strategy; tests add one.", "anchors": ["carbon/simulators/carbon_simulator.py:415-436", "carbon/simulators/carbon_simulator.py:496-560", "carbon/simulators/carbon_simulator.py:205-273", "carbon/carbon_order_ui.py:290-326"]}
{"id": "C148", "title": "Groups of curves, links and single encoded orders", "statement": "curves_by_pair_bidask returns each pair that occurs among the curves once; its list ALL is the curves of that pair in order, ASK those that sell the base token and BID the others, so that every curve is in exactly one of the two and under the opposite of its own label. A curve can be linked once, a second link raises ValueError. bn2intd converts every value under its key and fails only if some hexadecimal number cannot be read; a number stays as it is, and the hexadecimal text of a number is read as that number. The reader of a single encoded order raises for every argument, TypeError if all entries are there: it passes an argument that from_BSy does not have.", "quantifier": "all lists of curves, dicts of numbers and encoded orders", "why_tests_cant": "The swap of labels has to cancel for every curve; the reader of single orders is never called by a test.", "anchors": ["carbon/carbon_order_ui.py:1093-1121", "carbon/carbon_order_ui.py:338-350", "carbon/carbon_order_ui.py:123-164", "carbon/carbon_order_ui.py:265-288", "carbon/carbon_order_ui.py:1199-1216"]}
{"id": "C149", "title": "Tables of the curves of a container: records and numbers", "statement": "pairs_analysis lists one record for every curve on one of the given pairs in either direction (every curve if none are given) in the order of the container, saying the curve's id, tokens, pair, primary pair, price, price in the primary direction and amounts. pivotxy and pivotbq have a row for every token on an x axis and a column for every token on a y axis, alphabetically, each cell the number of curves in that direction. pivotxys and pivotbqs have rows and columns for all tokens; a cell is the number of curves in both directions (twice the number on the diagonal) if both tokens occur on both axes, and 0 otherwise. A curve with k = 0 against the primary direction makes every table raise ZeroDivisionError; unknown names raise ValueError.", "quantifier": "all containers built by any program, all lists of pairs and all target names", "why_tests_cant": "The loss of numbers in the symmetric tables depends on which tokens are on which axis; tests use a container where it does not show.", "anchors": ["carbon/tools/cpc.py:1065-1072", "carbon/tools/cpc.py:1144-1245", "carbon/tools/cpc.py:565-574"]}
{"id": "C150", "title": "Tables of the curves of a container: prices", "statement": "The tables prices, max and min hold the mean, highest and lowest price of the curves in a direction, 0 where there is none. std holds the sample standard deviation (dividing by n-1) and has rows and columns only for pairs with at least two curves in the same direction, while stdpc divides by n and by the mean and is empty where there is no curve, so that stdpc is not std / prices. pricelist has exactly one row for every direction of a pair and id, plaggr for every direction of a pair, with mean, number, relative deviation, range and concentration of the prices in the primary direction.", "quantifier": "all containers with positive curves built by any program and all lists of pairs", "why_tests_cant": "Groups of any size; a wrong denominator or a wrong group shows only for some numbers of curves.", "anchors": ["carbon/tools/cpc.py:1246-1290", "carbon/tools/cpc.py:1618-1680"]}
{"id": "C151", "title": "Tables of the curves of a container: volumes", "statement": "volumes has exactly two rows for every curve, the virtual and real amounts of its x and y token, ordered by token and id, with the ratio of the amounts as leverage (empty if the real amount is 0). vaggr has one row for every token, alphabetically, with the sums of its virtual and real amounts over both axes, their number and concentration, the mean price of the token in WETH-6Cc2 in this container (1 for WETH-6Cc2, none if no curve trades the two), the values of the sums at this price and their ratio. Without that price even the ratio of the amounts is empty.", "quantifier": "all containers with positive curves built by any program and all lists of pairs", "why_tests_cant": "Sums over any number of curves on either axis; that the leverage needs a price in one particular token shows only with other tokens.", "anchors": ["carbon/tools/cpc.py:1203-1228", "carbon/tools/cpc.py:1865-1885"]}
{"id": "C152", "title": "Token scales belong to the container that was built last", "statement": "A curve has the token scale of the container that was last constructed with it, or selected from (every selection constructs a container), and the trivial scale (1 for every token) before that; adding a curve to a container does not change its scale. A container keeps its own scale object. A scale object says the number last added for a token, else the one it was made with, else 1/100, and a number added is seen at once by all curves and containers that have the object. Hence curves of a container need not have the container's scale, and merely selecting curves from one container can change the scale that curves of another container have. Apart from scales containers behave as in C82-C90.", "quantifier": "all programs that make scales, curves and containers, add to containers and select from them, in any order", "why_tests_cant": "Which container was built last with a curve depends on the whole history of a program; tests build one container.", "anchors": ["carbon/tools/cpc.py:246", "carbon/tools/cpc.py:269-291", "carbon/tools/cpc.py:876-902", "carbon/tools/cpc.py:912-918", "carbon/tools/cpc.py:940-977", "carbon/tools/cpc.py:1292-1298", "carbon/tools/tokenscale.py:45-75"]}
{"id": "C153", "title": "The optimisation problem with scales that differ between curves", "statement": "For positive scales a point of the problem posed by nofees_optimizer is feasible iff every pool can make its trade and, for every token with a given number, the amounts of the token, each multiplied by the scale of its own curve, add up to the number times the scale of the first curve; the objective is weighted in the same way. If all curves have the same scales, which holds for a container that was just built, this says that the token is balanced. Otherwise it does not: in a container with an added curve a feasible point takes out one WETH and pays in a thousandth although the constraint sets WETH to zero.", "quantifier": "all lists of pools with positive scales, all points and all self-financing constraints", "why_tests_cant": "Feasible points form a continuum and the scales have to differ, which takes a particular history of the container.", "anchors": ["carbon/tools/optimizer.py:713-774", "carbon/tools/optimizer.py:796-797", "carbon/tools/optimizer.py:103-118"]}
{"id": "C154", "title": "What curve objects record about their making and their trades", "statement": "Every constructor keeps id, fee and description and all parameters given whose keys it does not set itself, and records its own name, except that curves from Uniswap v3 are recorded as pkpp and from_pkpp ignores the name it is given. Curves from Uniswap v3 record L, those from Carbon orders y, yint, A and B with (A+B)^2 and B^2 the start and end price. Looking up a parameter by a path gives the value, the default value if a dict on the path lacks the next key, and TypeError if something else than a dict is on the path. A trade makes a curve with the same fee, whose id is the text of the old id with -x appended, whose constructor is default, whose description is extended by the amount of x and whose parameter traded holds the amounts of this trade only, both if verbose and otherwise only the one given. After n trades the id ends in n times -x; ids 1 and '1' become equal.", "quantifier": "all constructors and arguments, all parameters and paths, all sequences of trades and every way of printing numbers", "why_tests_cant": "Paths through nested dicts of any depth and trade sequences of any length.", "anchors": ["carbon/tools/cpc.py:206-215", "carbon/tools/cpc.py:249-267", "carbon/tools/cpc.py:308-514", "carbon/tools/cpc.py:516-562"]}
{"id": "C155", "title": "Curves written to dicts and data frames and read back", "statement": "A curve object that was constructed and traded in any way, written to a dict and read back, has the same numbers, tokens, id, fee, description, constructor and parameters. For the curves of a container the order is kept and a curve without id gets its position, which may be the id of another curve. Through a data frame everything is the same except that a missing fee becomes nan if any curve of the container has a fee; an empty container raises KeyError. A dict with k and x only gives the full range curve on TKNB/TKNQ without id, fee and description; unknown keys and missing k or x raise TypeError.", "quantifier": "all curves whose x is not zero and whose tokens have no slash, lists of any length and all dicts", "why_tests_cant": "Round trips over all curves; the nan appears only for particular combinations of fees.", "anchors": ["carbon/tools/cpc.py:217-246", "carbon/tools/cpc.py:293-300", "carbon/tools/cpc.py:920-938", "carbon/tools/cpc.py:891-902"]}
{"id": "C156", "title": "Integer quotes of encoded orders stay close to the curve that was asked for", "statement": "Take an order with y whole tokens and prices 0 <= lo <= mg <= hi that can be encoded, and let e <= 1/8 be a relative precision at which lo (unless it is 0) and mg can be stored (e >= 2^-47 and e*sqrt(price)*2^48 >= 1). For every input x that the liquidity covers (sqrt(lo*mg)*x <= y) the integer code pays out at most 3 units more than the exact curve with the requested prices, for any prices, and, if the sums fit in 256 bits and y in 128, more than the exact amount times (1-7e) minus 4 units. For every target x <= y the code asks for at least the exact amount times (y/(y+1))^2 and less than the exact amount times (1+8e) plus 4 units. Hence the benchmark's test accepts all these quotes with tolerances 8 and 14e, respectively 8 and 16e+2/y. The test itself accepts an amount for a positive expectation iff it is equal or the absolute or the relative error is within its bound, raises ZeroDivisionError for expectation 0 and any other amount, and accepts everything for a negative expectation: targets behind the pole of the curve pass whatever the quote is, e.g. 2^128-1.", "quantifier": "all liquidities, prices, amounts, precisions and tolerances", "why_tests_cant": "The whole pipeline of square roots, float encoding, floored ratios and rescaled products is compared with a real curve for all inputs; the benchmark samples a few files.", "anchors": ["benchmark/core/__init__.py:8-17", "benchmark/core/trade/impl.py:8-46", "benchmark/core/trade/impl.py:60-122", "benchmark/core/trade/spec.py:3-43", "benchmark/test_trade.py:5-14"]}
{"id": "C157", "title": "Greedy and optimal matching agree for one order and for fixed prices, and otherwise optimal matching is not optimal", "statement": "For a book of one order both matchings are the same single trade, by target for all amounts, by source for orders whose products fit. For books of orders with fixed prices both matchings by target are the same for every amount and every way of sorting equal quotes. In the benchmark's comparison every action of the optimal matching is a genuine quote within liquidity, for the greedy matching by target all checks pass, and by source its total is within the amount, its outputs are within liquidity and do not exceed the quotes. The comparison passes by target for books of one order and of fixed prices unless nothing is matched, which raises ValueError. In general the comparison fails: there are books for which optimal matching pays out less than greedy matching for the same input, uses more than the requested amount (by source three times), or finds nothing.", "quantifier": "all books, amounts and sorting functions that permute", "why_tests_cant": "Agreement is over all books and amounts; the failing books have particular roundings and bracketings which the benchmark files do not contain.", "anchors": ["benchmark/core/match/impl.py:23-37", "benchmark/core/match/impl.py:56-65", "benchmark/core/match/impl.py:88-175", "benchmark/test_match.py:8-44"]}
{"id": "C158", "title": "The graph of an arbitrage result shows its trades and its gain", "statement": "For every converged (full) result of margp_optimizer on proper curves, from_r builds a graph with one edge for each trade that moves something, in the order of the curves, carrying the id of its curve, from the token the pool receives to the token it pays, with these amounts; the nodes are exactly the tokens of these trades, each once; the flag ignorezero makes no difference. The edges are the trade instructions. For each token the graph takes what the result reports. At the prices of the result every edge pays strictly more than it takes, in total minus the value of all token changes; if all other tokens balance the graph nets to zero in them, to the reported value in the target, and its total gain is the profit. A minimal or not converged result raises AssertionError. For simple_optimizer the graph shows allowed trades of the original (not inverted) curves, nets to the reported result in the target and to zero outside the pair, and each edge gains at the reported price; without curves IndexError. The graph of a container has two edges for each curve, with uids cid and cid-r, at its price and the reciprocal.", "quantifier": "all lists of curves, targets, results and id functions", "why_tests_cant": "It links two independent classes (optimizer results and graphs) for all curves and results; tests build a few graphs.", "anchors": ["carbon/tools/arbgraphs.py:836-878", "carbon/tools/arbgraphs.py:1048-1146", "carbon/tools/optimizer.py:860-904", "carbon/tools/optimizer.py:1377-1410"]}
{"id": "C159", "title": "What margp_optimizer starts from and when it refuses to run", "statement": "A call is refused with AssertionError, whatever the other parameters, unless it asks for pure arbitrage of a token that a curve of the container has. The name of a token is equivalent to every pure arbitrage constraint for it. Without pstart the start prices are, for each other token of the container, the average of the quotes of the curves that trade it directly against the target and are not at their boundary, weighted with the square roots of k; if some token has no such curve the call raises an exception, but with MO_PSTART it returns a frame of the tokens without numbers. Otherwise the frame that MO_PSTART returns, given back as pstart (or its column as a dict), leads to the same answer as leaving out pstart. Of a given dict only the entries of the other tokens of the container count; if one is missing the call raises KeyError; a data frame stands for its column of the target, without which an exception is raised; MO_PSTART returns the given prices. A converged answer reports the trades at its prices for exactly the curves of the container, and the minimal answer is the full answer with the same numbers.", "quantifier": "all containers, constraints, start prices, parameters, orders of sets and linear solvers", "why_tests_cant": "Equivalence of calls holds for every solver and container, not the few that can be run.", "anchors": ["carbon/tools/optimizer.py:1036-1045", "carbon/tools/optimizer.py:1078-1156", "carbon/tools/optimizer.py:1241-1243", "carbon/tools/optimizer.py:1300-1340"]}
{"id": "C160", "title": "No sequence of trades takes value out of strategies whose ranges do not cross", "statement": "If a router never lets an order give more, per unit received, than its upper price, then in the simulator: for weights at which neither of the two linked orders of a strategy sells below worth, the weighted sum of its two balances is never smaller after any sequence of operations (adding and deleting other strategies, trades in both directions, executed, failed or hypothetical) as long as both are stored; in particular for every price m between the buying and the selling range, m times the base balance plus the quote balance never falls below the amounts the strategy was created with. For a linked book and positive weights at which no order is a bargain, no sequence of trades lowers the weighted total, so a sequence that takes some token out of the book puts another one in. With crossing ranges this is false: a round trip of 5 ETH leaves the ETH and takes more than 4000 USDC. The routers meet the assumption: every route of the fast router is at a price between B^2 and (B+S)^2 of its order, and every fill of the exact and the alpha router that takes tokens from an order with a proper range is between its lower and its upper price, whatever the split; an order that is treated as having one price stays within a factor (1-1e-18)^2 of it.", "quantifier": "all sequences of operations, books, strategies, price lists, orders and requests", "why_tests_cant": "It is a statement about arbitrary interleavings of operations on arbitrary books; tests run a few trades.", "anchors": ["carbon/simulators/carbon_simulator.py:438-600", "carbon/simulators/carbon_simulator.py:605-870", "carbon/simulators/carbon_simulator.py:920-1080", "carbon/routers/fast_router.py:47-258", "carbon/routers/exact_base_router.py:77-241", "carbon/routers/alpha_router.py:174-403"]}
{"id": "C161", "title": "Splitting a trade into parts makes no difference with the exact router", "statement": "For a request by target or by source that the usable orders of the book can serve and any way of cutting it into positive parts that are carried out one after another, each on the book the previous ones left: every part is served by the exact router, and in the end the balances of all orders and the amount each order has received are those of the whole request served at once. A part carried out after another one never costs less, nor yields more, than the same part carried out first. The curve the router reads from an order does not depend on the order's balance, so settling a part changes nothing but balances. With the fast router this is false: taking 10 of two equal orders costs 5 at once and 10/3 in two halves.", "quantifier": "all books of orders with sane curves, requests and ways of cutting them", "why_tests_cant": "The number of parts, their sizes and the books are unbounded, and equality of the outcomes holds only in exact arithmetic; tests compare single trades.", "anchors": ["carbon/routers/exact_base_router.py:77-241", "carbon/routers/exact_router_x0y0n.py:21-188", "carbon/order.py:100-139", "carbon/simulators/carbon_simulator.py:795", "carbon/routers/fast_router.py:139-258"]}
{"id": "C162", "title": "With the exact router quotes by target and by source invert each other, and larger trades cost more per unit", "statement": "For a request, by target or by source, that the usable orders of the book can serve: asking with the other kind of request for the amount that the trade costs (or yields) is served too, and every order gives and receives the same. A larger request takes at least as much of every order and pays at least as much into it, and the amount paid in per unit taken out is at least as high as for a smaller request.", "quantifier": "all books of orders with sane curves and requests", "why_tests_cant": "Books and requests are unbounded, and the equality of two different computations holds for all of them only by the uniqueness of the common marginal price; tests compare single quotes.", "anchors": ["carbon/routers/exact_base_router.py:77-241", "carbon/routers/exact_router_x0y0n.py:21-188"]}
{"id": "C163", "title": "The earlier alpha router serves only windows of its ranking, counted by source for the right orders and by target for others", "statement": "alpha_router_orig: with k orders as threshold, by source the first k neighbours in the ranking that are worth the amount serve it exactly and as well as they can; if no k neighbours are, IndexError. By target the balance counted for a place in the ranking is that of another order (the balances are listed in the order of the ranking beside orders listed by number): the first k neighbours for which enough is counted serve the amount exactly and optimally if they hold it, otherwise it is refused (AssertionError), and if enough is counted for none IndexError; so one order that could deliver the amount can be missed. With fewer orders than the threshold (10 by target if none is given) both always raise IndexError, without threshold by source ValueError; if the threshold is the number of orders, by target everything the orders hold together is delivered optimally.", "quantifier": "all books of orders with two distinct prices, amounts, thresholds and rankings", "why_tests_cant": "Books, amounts and rankings are unbounded; the misalignment only shows for particular rankings.", "anchors": ["carbon/routers/alpha_router_orig.py:19-295"]}
{"id": "C164", "title": "Edge lookups of arbitrage graphs", "statement": "filter_edges returns, in the order of the graph, exactly the edges from the first token to the second; with one token the edges into or out of it, without any all edges; by node those that touch it; a pair means both directions, those in the direction of the pair first, each edge once unless the pair is one token twice, when each is listed twice, as are all results of node or nothing when both ways are asked for. A pair together with a token, and a node together with a direction, raise AssertionError, a malformed pair ValueError, unknown tokens KeyError. An edge whose remaining capacity is not negative beyond the tolerance is either empty or has capacity; below, it is neither; connections have no state.", "quantifier": "all graphs, tokens, pairs and flags", "why_tests_cant": "Graphs are unbounded and edges may repeat, join a node with itself or point either way.", "anchors": ["carbon/tools/arbgraphs.py:411-448", "carbon/tools/arbgraphs.py:1148-1230"]}
{"id": "C165", "title": "Stored start conditions: the strategy holds the valuation, but is run at rescaled prices", "statement": "The strategy made from stored start conditions holds, at the first price of the chart, exactly the stored valuation, divided in proportion to the two weights (1e-10 cash is added if no cash is due), with the stored ranges and marginal prices; the chart is spread evenly over the 366 days from start to end, both included. It is marked for rescaling, so run_sim starts with that value but multiplies all its prices by one hundredth of the first price: the stored ranges are used only if the chart starts at 100. Missing data raises TypeError, a missing entry KeyError, ranges that are not four ValueError, an empty valuation or chart IndexError, weights that cancel or a first price of zero ZeroDivisionError, as does the path of a chart of one point.", "quantifier": "all stored data", "why_tests_cant": "Quantifies over all charts, ranges, weights and valuations; the module has no tests.", "anchors": ["carbon/helpers/simulation.py:258-328", "carbon/helpers/simulation.py:38-123", "carbon/helpers/strategym.py:40-110"]}
{"id": "C166", "title": "Chart data of order books", "statement": "In the chart data of an order book the effective price stands at its trade size and the marginal price at the middle between the two sizes it was computed from, with the units of the prices as shown (inverted if reversed); the data frame has one row per trade size, the last one without marginal price; in the order book chart the price is the mean of two successive marginal prices and the liquidity of the same number half the tokens traded over the two steps per change of price. The entries named x and y of the order book chart are liquidity and price while the price is drawn horizontally and the liquidity vertically; for the other charts x and y are as drawn. In an ask book the AMM sells the source token, which goes out, and buys the target token, which comes in; in a bid book the reverse.", "quantifier": "all order books of finite amounts", "why_tests_cant": "Books are vectors of any length; alignment and units hold for every book.", "anchors": ["carbon/simulators/sim_analytics.py:315-376", "carbon/simulators/sim_analytics.py:404-470", "carbon/simulators/sim_analytics.py:561-710"]}
{"id": "C167", "title": "What limiting the number of orders costs in alpha trades", "statement": "Whenever a trade over at most k orders is served, the exact router over all orders serves the same amount at most as dearly (by source: for at least as many tokens), and with k at least the number of orders at the same cost. By target the orders are ranked by what a trader would get for returning the amount to them, cheapest first (the amount is passed with a negative sign); by source by what the amount buys, most first. If the k best-ranked orders hold the amount (by source: are counted for it), exactly these are used, and every larger k is at most as dear. By source with a single order, the order used buys at least as much as any order that can take the whole amount. By target this is false, and raising k can make a trade dearer, whichever way ties are ranked.", "quantifier": "all books of orders with proper price ranges, all amounts, all k, all descending rankings (any ranking for the comparison with the exact router)", "why_tests_cant": "Compares two optimisations over all routings of arbitrary books.", "anchors": ["carbon/routers/alpha_router.py:68-134", "carbon/routers/alpha_router.py:149-276", "carbon/routers/alpha_router.py:278-403", "carbon/routers/exact_base_router.py:match"]}
{"id": "C168", "title": "Comparisons, rounding, indices and copies of shared variables", "statement": "Shared variables compare with numbers and with each other, however deeply nested, exactly as the numbers they stand for, != included although its method is misspelt. abs, floor, ceil, trunc and round give shared variables, nested as deeply, holding the absolute value, the integer or the nearest decimal (ties to the even digit). As an index a shared variable is cut off towards zero even if it holds a fraction. The copy +x is independent of x if x holds a number; if x holds an inner variable, which it does after another shared variable was added to it in place, whatever is added in place to the copy is added to x as well and vice versa.", "quantifier": "all values, all nestings, all heaps of objects", "why_tests_cant": "Aliasing of objects over all heaps; exact rounding of all numbers.", "anchors": ["carbon/helpers/sharedvar.py:51-98", "carbon/helpers/sharedvar.py:103-105", "carbon/helpers/sharedvar.py:172-174", "carbon/helpers/sharedvar.py:226-248"]}
{"id": "C169", "title": "Tables aggregated from price histories", "statement": "The tables of aggr_query: for every field asked for there is one table; its index has every time of any history exactly once, it has exactly one column for each pair that was answered, named after the pair (with the field in front if a grand table is wanted), and the column holds the values of this field at the times of the pair's history and nothing at the others. The grand table holds all of them side by side over the same times. The histories are the answers to one question per pair, and the first question that raises ends the query. Without any answer or with a grand table of no fields it raises ValueError, with an unknown field KeyError. A pair whose question fails quietly is missing from the tables without notice.", "quantifier": "all lists of pairs and fields, all histories with distinct times, all servers, all orders of the set of pairs", "why_tests_cant": "Unbounded tables and joins; nondeterministic order of a set.", "anchors": ["carbon/helpers/cryptocompare.py:413-453", "carbon/helpers/cryptocompare.py:454-498"]}
{"id": "C170", "title": "Requests of the SDK wrapper and the reading of answers", "statement": "A synchronous call sends exactly one POST request with the given parameters and the token of the object to http://localhost:3118/<apibase>/scall/<endpoint> and gives the field data of an answer with status 200; any other status, a lost connection, or an answer without data is a RuntimeError, and an answer that is not json an AttributeError. Any other call gives the request id of an answer that reports success whatever its status, raises KeyError if there is none, and otherwise raises ValueError or gives False as configured; with the default set to synchronous it goes to the synchronous endpoint but still wants a request id. Asking for a result gives it, True while it is awaited, and ValueError or False if the id is unknown; without a connection it is a KeyError. At most one request is sent per call, and always to the url of the class, not to the url given to the constructor. A GET with parameters and an unknown method are not sent. Balances are assigned to tokens by position and scaled by the decimals of the token. Pairs are looked up in the token list of the module.", "quantifier": "all answers, objects, endpoints, parameters, tokens", "why_tests_cant": "A network with arbitrary answers.", "anchors": ["carbon/sdk/sdkbase.py:22-163", "carbon/sdk/carbonsdk0.py:36-269", "carbon/sdk/carbonsdk0.py:544-598"]}
{"id": "C171", "title": "Transactions composed by the SDK wrapper", "statement": "Every transaction is one request whose overrides are those of the caller with a missing or zero gas limit replaced by 999999999; the dict of the caller is changed in the same way. A new strategy is sent with each price and budget as text under its own name. An update is sent with exactly those of its six prices and budgets that are not None, as texts, and with the marginal prices of the update record, or null, beside it; the marginal prices passed to updateStrategy itself are ignored. An object that is not an update raises AssertionError before anything is sent or changed. In trade actions every int is sent as its decimal text, from which it can be read back, and other values are left alone; a missing deadline is sent as 4294967295, a missing input limit as 2**128-1 and a missing minimal return as 1. The choice to sign a transaction is never sent under the name sign.", "quantifier": "all arguments, overrides, updates, actions", "why_tests_cant": "Mutation of the caller's dict; all combinations of missing fields.", "anchors": ["carbon/sdk/carbonsdk0.py:286-366", "carbon/sdk/carbonsdk0.py:393-534", "carbon/sdk/carbonsdk0.py:570-579", "carbon/sdk/sdkbase.py:222-235"]}
{"id": "C172", "title": "The formulas of a curve in double precision", "statement": "For a curve whose numbers B, S, yint and y are floats that are zero or between 2^-100 and 2^100, and an argument of that kind or a negative one, the functions pa, pb, xint, p_marg_f, dyfromdx_f and xfromy_f, computed in IEEE doubles, have the outcome of the same formulas over the real numbers: they raise the same exception, or give None in the same cases, or give a finite number that differs from the exact value by at most 2^-49 of it. For dxfromdy_f the difference is at most (6k+10) 2^-53 of the exact value if the root of the marginal price falls by at most a factor of k (k at most 2^20) in the trade; without such a bound there is none: on a curve with B = 2^-60 and S = yint = y = 1 selling all of y raises ZeroDivisionError although the amount to receive is a finite number.", "quantifier": "all doubles in the range, all libraries for x**2 with a relative error of at most 2^-52", "why_tests_cant": "Tests compare a few numbers; no test bounds the error for all floats.", "anchors": ["carbon/carbon_order_ui.py:86-98", "carbon/carbon_order_ui.py:521-555", "carbon/carbon_order_ui.py:633-639", "carbon/carbon_order_ui.py:659-760"]}
{"id": "C173", "title": "The price range of an order made from prices, in double precision", "statement": "from_prices, computed in IEEE doubles, succeeds for all positive prices between 2^-100 and 2^100 in any order, either token and all 0 <= y <= yint; yint and y are those given, and the pmin and pmax of the curve differ from the smaller and the larger of the two prices by at most 2^-49 of them. They are not the prices themselves: prices 3 and 2 give a curve from 2.0000000000000004 to 2.9999999999999996.", "quantifier": "all doubles in the range, all libraries for x**2 with a relative error of at most 2^-52", "why_tests_cant": "Tests compare a few numbers after rounding.", "anchors": ["carbon/carbon_order_ui.py:81-107", "carbon/carbon_order_ui.py:166-211"]}
{"id": "C174", "title": "Encoding and decoding SDK orders in double precision", "statement": "EncodedOrder.encode, computed in IEEE doubles, succeeds for all prices that are zero or between 2^-100 and 2^100 with p_lo <= p_hi, all y >= 0 and yint >= 0 or absent; the result is that of encoding, without rounding errors, two numbers that differ from the prices by at most 2^-51 of them (so C108 applies to these). A negative price raises ValueError. decode, and so A_ and B_, is exact for exponents up to 200; p_end and p_start differ from their exact values by at most 2^-52 and 2^-50 of them. From end to end p_end and p_start exceed the prices asked for by at most 2^-49 of them, and their roots fall short by at most 2^-46 of the root plus 2^-47, and 2^-44 plus 2^-46. p_end can exceed the price asked for: for 0x1.0000000006p-16 it does.", "quantifier": "all doubles in the range, all integer amounts, all libraries for x**2 with a relative error of at most 2^-52", "why_tests_cant": "Tests encode and decode a few prices and compare them after rounding.", "anchors": ["carbon/sdk/carbonsdk.py:207-367"]}
{"id": "C175", "title": "The roots an order of the simulator stores as floats", "statement": "An order of the simulator made from two prices stores the smaller and the larger of them, and as B and S two doubles (math.sqrt of a Decimal is a float) with B and S not negative, B^2 within 2^-49 of the smaller and (B+S)^2 within 2^-49 of the larger price, for all Decimal prices that are zero or between 2^-190 and 2^190 in any order. For a positive lower price and every balance up to the capacity, what the fast router quotes for the order is within 2^-49 of what the curve with the exact roots gives: for an amount of the bought token the amount to pay (the amount itself is limited to the balance, exactly), and for an amount to pay the amount bought and the amount paid, both limited to the balance. A negative price raises ValueError. The width of the range is not kept: from prices 1 and 1+2^-52 an order with S = 0, a single price, is made.", "quantifier": "all Decimal prices in the range, all balances, capacities and amounts", "why_tests_cant": "Tests compare a few trades after rounding; none bounds what the mixed Decimal and float arithmetic loses.", "anchors": ["carbon/order.py:150-192", "carbon/routers/fast_router.py:47-116"]}
{"id": "C176", "title": "Quotes of the fast router with all roundings", "statement": "With every Decimal operation rounded to 128 digits and the roots of the prices stored as doubles, the fast router (without floor division) still quotes every order made from two positive prices between 2^-190 and 2^190, for every balance between 0 and the capacity and every amount that is not negative: by target the amount bought is exactly the smaller of the amount asked for and the balance, and the amount to pay is within 2^-49 of what the curve with the exact roots gives for it; by source the amount bought never exceeds the balance and it and the amount paid are within 2^-49 of the exact ones. The rounding of Decimals alone changes an amount to pay by at most 2^-185 and an amount bought by at most 2^-389 of it, provided the roots of the two prices differ by at most a factor of 2^200.", "quantifier": "all prices in the range, all balances, capacities and amounts", "why_tests_cant": "No test bounds the rounding of Decimals; with cancellation in the denominator it is not evident.", "anchors": ["carbon/order.py:20", "carbon/order.py:150-192", "carbon/routers/fast_router.py:47-116", "carbon/routers/fast_router.py:260-265"]}
{"id": "C177", "title": "Encoded rates do not depend on the precision of Decimals", "statement": "The benchmark encodes a rate as the integer part of sqrt(rate) * 2^48 computed with Decimals of 100 digits (root rounded half even, product half down). For every rate of at most 69 significant digits, wherever its point is, the result is exactly the integer part of the exact number, cleared of all but its 48 most significant bits, and so every order encoded from such rates has the same four integers as with exact arithmetic; negative rates raise. It fails for longer rates: 1 - 10^-210 is encoded as 2^48 rather than 2^48 - 1.", "quantifier": "all rates p / 10^d with 0 <= p < 10^69, all liquidities", "why_tests_cant": "A rounding just across an integer changes an encoded rate; that it never happens is a matter of how close square roots come to integers.", "anchors": ["benchmark/core/__init__.py:1-6", "benchmark/core/trade/impl.py:20-23", "benchmark/core/trade/impl.py:36-46"]}
{"id": "C178", "title": "The reference amounts of the benchmark with all roundings", "statement": "The reference implementation that the benchmark compares the integer code with computes with Decimals of 100 digits. For every order with l <= m (lowest and marginal rate) and positive liquidity y, an amount x that the order can take (x sqrt(ml) <= y) buys the amount m x y / (sqrt(m)(sqrt(m) - sqrt(l)) x + y) within 10^-96 of it, for all rates; and the amount to pay for any x <= y is x y / (m y - sqrt(m)(sqrt(m) - sqrt(l)) x) within 10^-96 sqrt(m/l) of it (roots differing by a factor of at most 10^90). An amount of 0 from no liquidity raises, and so do negative rates.", "quantifier": "all amounts, liquidities and rates in the stated ranges", "why_tests_cant": "The differences of roots cancel; a test with some rates does not bound the error for others.", "anchors": ["benchmark/core/__init__.py:1-6", "benchmark/core/trade/spec.py:3-9", "benchmark/core/trade/spec.py:19-43"]}
{"id": "C179", "title": "Reading the raw data of a strategy changes it", "statement": "The document raw_json of a strategy of the SDK has the tokens and keys of the dict that the strategy was made of and, for each number of any size, a text that is read as this number; reading it again gives the same document. It is made inside the dict: a strategy made of the same dict afterwards has texts for its id and numbers, keeps the ends of its price ranges and the marginal price of full orders, but its empty orders raise NotImplementedError in place of returning their price. A strategy can be made of a dict if and only if both orders have exactly the keys y, z, A, B (otherwise TypeError). Its description shows the prices of the first order inverted and those of the second as they are, and raises if and only if the first order reaches a price of 0.", "quantifier": "all dicts of strategies", "why_tests_cant": "The change of the dict shows only when it is used again; sizes of numbers are unbounded.", "anchors": ["carbon/sdk/carbonsdk.py:208-251", "carbon/sdk/carbonsdk.py:349-422"]}
{"id": "C180", "title": "Constant product curves computed with floats", "statement": "The six constructors of constant product curves give, for positive arguments between 2^-100 and 2^100, doubles for k, x, y and p within a relative 2^-49 of the exact ones. What comes out for dx >= 0 is never negative, never more than y, and within 2^-50 times y of the exact amount; likewise within 2^-50 times x for dy >= 0. Executing a trade with dx >= 0 never lowers x nor raises y, and the actual balances move by the exact amounts up to 2^-51 and 2^-50 times the balances; with dy >= 0 the new x and y and the actual balances are likewise within 2^-50 of the exact ones, relative to the balances. ValueError is raised if and only if more than the actual balance would be taken out and bounds are not ignored. After any number of trades k is the same double and x times y is within 2^-52 of it: rounding does not add up. It is not true that amounts are accurate relative to themselves (a small trade on a large pool gives 0), that nothing costs nothing (k=1, x=49, dy=0 costs 7e-15), that a pool never pays more than its curve says, or that the actual balance is the rounded sum of the old one and what was added.", "quantifier": "all doubles in the stated ranges; all sequences of trades", "why_tests_cant": "Rounding errors depend on all bits of the arguments, and sequences of trades are unbounded.", "anchors": ["carbon/tools/cpc.py:205-247", "carbon/tools/cpc.py:308-336", "carbon/tools/cpc.py:516-562", "carbon/tools/cpc.py:602-610", "carbon/tools/cpc.py:775-806"]}
{"id": "C181", "title": "Pools as curves computed with floats", "statement": "In double precision, a Uniswap v2 pool read from its balances has x_min exactly 0 and no highest price; its y_min is 0 up to 2^-51 times y, and its lowest price is None or at most 2^-99 of its price; read from k and x, it has no range at all. It is not true that the lowest price is always None (x = y = 0.1). A pool with a range of prices (Uniswap v3, for which the price must lie strictly inside the range, otherwise AssertionError) has actual balances that are never negative, x_act at most x, and within 2^-50 of the exact ones relative to the virtual balances. A Carbon order read with A and B has k and x within 2^-49 of the exact ones, its virtual y within 2^-50, its y_min within 2^-50 times the virtual y, and no room on the other side (x_min = x); with A = 0 it raises ZeroDivisionError; an order that goes down to a price of 0 can have a positive y_min and so a finite x_max. An order with x_act = 0 has as its highest price the same double as its price. The ends of the range follow from the smallest balances: None where these are not positive, otherwise k/y_min and k/x_min up to 2^-52, and y_min^2/k and k/x_min^2 up to 2^-50. The state at a price p is within 2^-49 of sqrt(k/p) and sqrt(kp); with bounds it lies in the range computed, equals the unbounded one if that lies in the range, and otherwise is an end of the range.", "quantifier": "all doubles in the stated ranges", "why_tests_cant": "Rounding errors depend on all bits of the arguments.", "anchors": ["carbon/tools/cpc.py:338-348", "carbon/tools/cpc.py:350-381", "carbon/tools/cpc.py:383-413", "carbon/tools/cpc.py:415-514", "carbon/tools/cpc.py:650-711", "carbon/tools/cpc.py:731-763"]}
{"id": "C182", "title": "Carbon orders given by prices, with floats", "statement": "In double precision, a Carbon order read from its prices pa > pb (each between 2^-90 and 2^90) gets A within 2^-51 sqrt(pa) of sqrt(pa) - sqrt(pb), never negative, and B within 2^-51 of sqrt(pb); prices in the other direction give the same up to 2^-50, and their inverses keep their order or become equal. Equal prices are moved apart by the double nearest to 1.0000001 and leave A positive with a relative error of at most 2^-25. pa < pb raises AssertionError, as does y < 0 or y > yint. The curve is the one read from these A and B. Orders with equal prices or with pa at least (1 + 2^-50) pb can always be read. It is not true that all orders with pa > pb can: between 1 and the next double, A is 0 and the constructor raises ZeroDivisionError.", "quantifier": "all doubles in the stated ranges", "why_tests_cant": "Rounding errors depend on all bits of the arguments; the failing prices are neighbours.", "anchors": ["carbon/tools/cpc.py:415-514"]}
{"id": "C183", "title": "Trades inside the range of a curve, with floats", "statement": "In double precision, dyfromdx_f and dxfromdy_f with bounds return the trade computed without bounds if the new balance lies in the computed range, and None otherwise. For a pool with x_act < x, taking all of x is always in the range although both ends are rounded: dy_max is exactly y_max - y as doubles, is not negative, and y_max is within 2^-51 of k/(x - x_act). For y_act < y, x_max is within 2^-51 of k/(y - y_act), and dx_max is x_max - x if x_max is at least x_min, otherwise None; it is a number whenever x_act is at least 2^-50 x. It is not true that it always is (k = 3, x = 59, x_act = y_act = 0 has an x_max but no dx_max). Where the actual balance is the virtual one, there is no largest trade. The trade to a price p is within 2^-48 of (sqrt(k/p) - x, sqrt(kp) - k/x) relative to the sums of the balances before and after.", "quantifier": "all doubles in the stated ranges", "why_tests_cant": "Whether a rounded balance is beyond a rounded end of the range depends on all bits of the arguments.", "anchors": ["carbon/tools/cpc.py:765-842"]}
{"id": "C184", "title": "Uniswap v3 prices and reserves with floats", "statement": "In double precision, for every square root price sp96 of 160 bits, the price is within 2^-52 of sp96^2/2^192, and within 2^-51 once multiplied by the decimal factor, as is its inverse; a larger sp96 never has a smaller price. sp96_from_price is within 2^-51 of sqrt(p) 2^96, and applied to the price of sp96 returns sp96 up to 2^-51; it is not true that sp96 can be recovered, since different sp96 have the same price. The reserve of token 1 is never negative if the computed price is not below the lower end of the range, and is within 2^-49 of liquidity (sqrt(p) - sqrt(pa)) decf relative to liquidity sqrt(p) decf.", "quantifier": "all sp96 of 160 bits, liquidities of 128 bits, decimal factors and ends of ranges in the stated ranges", "why_tests_cant": "Integers of 160 bits and rounding errors that depend on all bits.", "anchors": ["carbon/tools/univ3calc.py:138-161", "carbon/tools/univ3calc.py:195-204"]}
{"id": "C185", "title": "Reserve of token 0 of Uniswap v3 pools with floats", "statement": "In double precision, if the computed price of a pool is not above the upper end pb of its range, tkn0reserve returns a finite reserve that is never negative, within 2^-49 of liquidity (1/sqrt(p) - 1/sqrt(pb)) decf relative to liquidity decf/sqrt(p). If the computed price is exactly at the upper end, the reserve is exactly zero.", "quantifier": "all sp96 of 160 bits, liquidities of 128 bits, decimal factors and upper ends of ranges in the stated ranges", "why_tests_cant": "Rounding errors of a difference of nearby square roots depend on all bits of the price and of the end of the range.", "anchors": ["carbon/tools/univ3calc.py:184-193"]}
{"id": "C186", "title": "Total value locked of Uniswap v3 pools with floats", "statement": "In double precision, if the computed price of a pool is in its range, tvl in either token is finite and never negative. In token 0 it is within 2^-47 of the exact value of both reserves at the exact price, relative to liquidity decf/sqrt(p); in token 1 the same holds multiplied by the price.", "quantifier": "all sp96 of 160 bits, liquidities of 128 bits, decimal factors and ends of ranges in the stated ranges, both choices of the token", "why_tests_cant": "Rounding errors of two differences of nearby square roots depend on all bits of the price and of the ends of the range.", "anchors": ["carbon/tools/univ3calc.py:206-213"]}
{"id": "C187", "title": "Total value locked of curves with floats", "statement": "In double precision, tvl of a ConstantProductCurve in the base or the quote token is finite, never negative and within a relative 2^-49 of the exact (p x_act + y_act) mult, divided by the exact price k/x/x for the base token. For a curve from k and x with all its liquidity this is 2 k/x mult in the quote token and 2 x mult in the base token, up to the same relative error.", "quantifier": "all k, x, actual balances and multipliers that are doubles between 2^-100 and 2^100 (balances and multiplier may be zero), both tokens", "why_tests_cant": "Rounding errors depend on all bits of the four numbers.", "anchors": ["carbon/tools/cpc.py:612-634"]}
