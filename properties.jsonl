{"id": "C01", "title": "Decimal add/sub are exact or refuse", "statement": "Adding or subtracting two decimals of the same scale yields a decimal of that scale whose numeric value is exactly the mathematical sum/difference; operands of different scale are always rejected with DifferentScale and never silently combined; the only other failure is a panic, and it happens exactly when the magnitude of the true result does not fit in u128.", "quantifier": "all pairs of decimals (value < 2^128, any scale, any sign)", "why_tests_cant": "2^257+ operand pairs per scale; sign/magnitude case split has boundary cases no sample covers", "anchors": ["programs/hmmcl-sandbox/src/decimal.rs: Add::add", "programs/hmmcl-sandbox/src/decimal.rs: Sub::sub"]}
{"id": "C02", "title": "Decimal multiplication rounds in a known direction by less than one unit", "statement": "a.mul(b) keeps a's scale, has the sign of the product, and its magnitude is the exact product truncated towards zero (error < 1 unit of a's scale); a.mul_up(b) is the exact product rounded away from zero; a.mul(b) <= exact <= a.mul_up(b) in magnitude; both fail only when the intermediate product does not fit.", "quantifier": "all pairs of decimals", "why_tests_cant": "rounding direction must hold for every operand pair", "anchors": ["programs/hmmcl-sandbox/src/decimal.rs: Mul::mul", "programs/hmmcl-sandbox/src/decimal.rs: MulUp::mul_up", "programs/hmmcl-sandbox/src/decimal.rs: Mul<u128>::mul"]}
{"id": "C03", "title": "Decimal division rounds in a known direction; division by zero never yields a number", "statement": "a.div(b) is the exact quotient truncated towards zero at a's scale, a.div_up(b) the quotient rounded away from zero, a.div_to_scale(b,s) the exact quotient truncated at scale s; a zero divisor always panics.", "quantifier": "all pairs of decimals and target scales", "why_tests_cant": "rounding and zero-divisor behaviour over an unbounded input space", "anchors": ["programs/hmmcl-sandbox/src/decimal.rs: Div::div", "programs/hmmcl-sandbox/src/decimal.rs: DivUp::div_up", "programs/hmmcl-sandbox/src/decimal.rs: DivScale::div_to_scale"]}
{"id": "C04", "title": "Changing scale preserves the number up to the dropped digits", "statement": "to_scale to a finer scale is exact and going back restores the original; to_scale to a coarser scale truncates towards zero by less than one unit; to_scale_up rounds the magnitude up; both keep the sign.", "quantifier": "all decimals and target scales", "why_tests_cant": "all value/scale/sign combinations", "anchors": ["programs/hmmcl-sandbox/src/decimal.rs: Decimal::to_scale", "programs/hmmcl-sandbox/src/decimal.rs: Decimal::to_scale_up"]}
{"id": "C05", "title": "Comparisons implement the numeric order", "statement": "eq, lt, gt, lte, gte, min, max of two equal-scale decimals agree with the order of the numbers they denote (hence trichotomy, totality, transitivity); different scales are rejected.", "quantifier": "all pairs/triples of decimals", "why_tests_cant": "order laws quantify over all pairs and triples", "anchors": ["programs/hmmcl-sandbox/src/decimal.rs: Compare"]}
{"id": "C06", "title": "Square root terminates and is correct to one unit in the last place", "statement": "For every non-negative decimal, sqrt terminates; either it reports ExceedsPrecisionRange (exactly when value*10^scale does not fit) or the result r satisfies floor(sqrt(n)) <= r <= floor(sqrt(n))+1 with n = value*10^scale.", "quantifier": "all decimals", "why_tests_cant": "Newton loop termination and accuracy for every u128 start value", "anchors": ["programs/hmmcl-sandbox/src/decimal.rs: Sqrt::sqrt"]}
{"id": "C07", "title": "Integer power", "statement": "pow(n) of a non-negative decimal terminates, never exceeds the exact power, and pow(0)=1, pow(1)=base; the sign of the result is the sign of the mathematical power.", "quantifier": "all bases and all u128 exponents", "why_tests_cant": "error accumulation and sign over all exponents", "anchors": ["programs/hmmcl-sandbox/src/decimal.rs: Pow<u128>::pow"]}
{"id": "C08", "title": "Printing then parsing a decimal gives back the same decimal", "statement": "For every decimal d, from_str(d.to_string()) = Ok(d).", "quantifier": "all decimals (any value, scale 0..255, sign)", "why_tests_cant": "infinite family of strings with padding/point placement cases", "anchors": ["programs/hmmcl-sandbox/src/decimal.rs: fmt::Display for Decimal", "programs/hmmcl-sandbox/src/decimal.rs: Decimal::from_str_radix"]}
{"id": "C09", "title": "Parsing scientific notation preserves the written number", "statement": "If from_str accepts a string of the form [-]digits[.digits]e[+-]digits, the decimal it returns denotes the written number (up to truncation only if the result cannot represent it).", "quantifier": "all strings of that form", "why_tests_cant": "grammar is infinite", "anchors": ["programs/hmmcl-sandbox/src/decimal.rs: Decimal::from_str_radix"]}
{"id": "C10", "title": "Conversion to integers is truncation or a panic, never a wrong number", "statement": "abs() returns the floor of the magnitude, abs_up() its ceiling, to_u64/Into<u64> the raw value; when the result does not fit they panic instead of wrapping. The same is expected of Into<i32>.", "quantifier": "all decimals", "why_tests_cant": "all values incl. those beyond the target width", "anchors": ["programs/hmmcl-sandbox/src/decimal.rs: Decimal::abs", "programs/hmmcl-sandbox/src/decimal.rs: Decimal::abs_up", "programs/hmmcl-sandbox/src/decimal.rs: Into<i32>"]}
{"id": "C11", "title": "Tick prices are defined on a known range and strictly increasing", "statement": "tick_to_rp(t) yields a price for every t below 2^19 and panics for every t >= 2^19; on its domain it is strictly increasing and at least 1, so distinct ticks never share a price.", "quantifier": "all ticks", "why_tests_cant": "half a million ticks below and 2^128 above; truncation could make neighbouring ticks collide", "anchors": ["programs/hmmcl-sandbox/src/cl_pool/cl_math.rs: PoolMath::tick_to_rp", "programs/hmmcl-sandbox/src/cl_pool/cl_math.rs: PoolMath::tick_base_root"]}
{"id": "C12", "title": "Finding the tick of a price terminates and brackets the price", "statement": "rp_to_tick_loop terminates for every price and start tick (returning or panicking on overflow); when it returns x (round-down) the tick-multiplication sequence from the start tick is below the price at every index in (start, x] and not below it at x+1; rounding up returns exactly one more.", "quantifier": "all prices, directions and start ticks", "why_tests_cant": "unbounded loop over all prices", "anchors": ["programs/hmmcl-sandbox/src/cl_pool/cl_math.rs: PoolMath::rp_to_tick_loop"]}
{"id": "C13", "title": "Tick -> price -> tick is the identity", "statement": "Looking up the tick of tick_to_rp(t) returns t.", "quantifier": "all ticks", "why_tests_cant": "must hold at each of the 524288 boundaries", "anchors": ["programs/hmmcl-sandbox/src/cl_pool/cl_math.rs: PoolMath::rp_to_tick_loop", "programs/hmmcl-sandbox/src/cl_pool/cl_math.rs: PoolMath::tick_to_rp"]}
{"id": "C14", "title": "Spacing alignment", "statement": "tk_to_possible_tk(t, s, down) is the largest multiple of s not above t; (.., up) the smallest multiple not below t; spacing 0 panics.", "quantifier": "all ticks, spacings and directions", "why_tests_cant": "all pairs of u128", "anchors": ["programs/hmmcl-sandbox/src/cl_pool/cl_math.rs: PoolMath::tk_to_possible_tk"]}
{"id": "C15", "title": "Liquidity never needs more tokens than were offered", "statement": "The token amounts computed back from the liquidity granted for (x, y) never exceed (x, y): y_from_l(liq_from_x_y(x,y)) <= y and x_from_l(liq_from_x_y(x,y)) <= x.", "quantifier": "all amounts, prices and ranges", "why_tests_cant": "nested truncations; the sign of the rounding error depends on the operands", "anchors": ["programs/hmmcl-sandbox/src/cl_pool/cl_math.rs: PoolMath::liq_from_x_y_rp_rng", "programs/hmmcl-sandbox/src/cl_pool/cl_math.rs: PoolMath::x_from_l_rp_rng", "programs/hmmcl-sandbox/src/cl_pool/cl_math.rs: PoolMath::y_from_l_rp_rng"]}
{"id": "C16", "title": "Token amounts are monotone and superadditive in liquidity", "statement": "More liquidity never corresponds to fewer tokens, and the amounts for two pieces of liquidity together are at least the sum of the amounts for the pieces, so splitting a withdrawal never pays more.", "quantifier": "all liquidity amounts, prices and ranges", "why_tests_cant": "inequality over all splits", "anchors": ["programs/hmmcl-sandbox/src/cl_pool/cl_math.rs: PoolMath::x_from_l_rp_rng", "programs/hmmcl-sandbox/src/cl_pool/cl_math.rs: PoolMath::y_from_l_rp_rng"]}
{"id": "C17", "title": "Single-step price moves go the right way", "statement": "Supplying x never raises the computed root price and supplying y never lowers it: rp_new_from_l_dx(l,rp,dx) <= rp and rp_new_from_l_dy(l,rp,dy) >= rp for non-negative inputs.", "quantifier": "all liquidity, prices and amounts", "why_tests_cant": "truncation may move the price either way", "anchors": ["programs/hmmcl-sandbox/src/cl_pool/cl_math.rs: PoolMath::rp_new_from_l_dx", "programs/hmmcl-sandbox/src/cl_pool/cl_math.rs: PoolMath::rp_new_from_l_dy"]}
{"id": "C18", "title": "Swap accounting is exact (X in)", "statement": "For every completed execute_swap_from_x: pool x plus x fee pot grows by exactly recv_amount, of which exactly recv_fee goes to the fee pot; pool y plus y adjustment pot changes by exactly send_amount; y_adj grows by exactly send_hmm_adj; y fee pot and x adj pot are untouched.", "quantifier": "all pool states, amounts, oracle prices, any number of crossed ticks", "why_tests_cant": "number of loop iterations and rounding unbounded", "anchors": ["programs/hmmcl-sandbox/src/cl_pool/mod.rs: Pool::execute_swap_from_x"]}
{"id": "C19", "title": "Swap accounting is exact (Y in)", "statement": "Mirror image for execute_swap_from_y.", "quantifier": "all pool states, amounts, oracle prices, any number of crossed ticks", "why_tests_cant": "number of loop iterations and rounding unbounded", "anchors": ["programs/hmmcl-sandbox/src/cl_pool/mod.rs: Pool::execute_swap_from_y"]}
{"id": "C20", "title": "A swap takes at most what was offered and pays out only for input", "statement": "In every completed swap 0 <= recv_fee <= recv_amount <= offered amount, send_amount <= 0, nothing is paid for zero input and something is paid for positive input; if recv_amount < offered, the pool ran out of active ticks in that direction.", "quantifier": "all pool states and amounts", "why_tests_cant": "multi-step loop with rounding", "anchors": ["programs/hmmcl-sandbox/src/cl_pool/mod.rs: Pool::execute_swap_from_x", "programs/hmmcl-sandbox/src/cl_pool/mod.rs: Pool::execute_swap_from_y", "programs/hmmcl-sandbox/src/cl_pool/cl_components.rs: SwapOutput::new"]}
{"id": "C21", "title": "Swaps move the price in one direction", "statement": "While there is liquidity in range, every step of an X-in swap leaves the root price unchanged or lower, every step of a Y-in swap unchanged or higher, and a step never passes the next active tick's price.", "quantifier": "all pool states, amounts, oracle prices", "why_tests_cant": "every intermediate step of every swap", "anchors": ["programs/hmmcl-sandbox/src/cl_pool/mod.rs: Pool::swap_within_tick_from_x", "programs/hmmcl-sandbox/src/cl_pool/mod.rs: Pool::swap_within_tick_from_y"]}
{"id": "C22", "title": "Every swap terminates", "statement": "execute_swap_from_x / execute_swap_from_y finish (return or panic) after at most one loop iteration per active tick plus one, for every pool state.", "quantifier": "all pool states, amounts, oracle prices", "why_tests_cant": "termination is not testable", "anchors": ["programs/hmmcl-sandbox/src/cl_pool/mod.rs: Pool::execute_swap_from_x", "programs/hmmcl-sandbox/src/cl_pool/mod.rs: Pool::execute_swap_from_y", "programs/hmmcl-sandbox/src/cl_pool/mod.rs: Pool::try_get_in_range"]}
{"id": "C23", "title": "Tick liquidity is the sum over positions", "statement": "In every state reachable by any sequence of deposits, withdrawals and swaps, each tick's gross liquidity is the sum of the liquidity of the positions that use it as a bound and its net liquidity is the sum over positions starting there minus the sum over positions ending there.", "quantifier": "all histories of calls", "why_tests_cant": "invariant over unbounded histories", "anchors": ["programs/hmmcl-sandbox/src/cl_pool/mod.rs: Pool::update_tick", "programs/hmmcl-sandbox/src/cl_pool/mod.rs: Pool::_set_position"]}
{"id": "C24", "title": "A tick is active exactly while some position with liquidity uses it", "statement": "In every reachable state a tick is listed as active iff the gross liquidity referencing it is positive; the list is strictly ascending.", "quantifier": "all histories of calls", "why_tests_cant": "invariant over unbounded histories", "anchors": ["programs/hmmcl-sandbox/src/cl_pool/mod.rs: Pool::update_tick", "programs/hmmcl-sandbox/src/cl_pool/mod.rs: Pool::tick_keys_cloned"]}
{"id": "C25", "title": "Liquidity in range is the sum of the positions covering the current tick", "statement": "In every reachable state glbl_liq equals the total liquidity of positions with lower <= glbl_tick < upper.", "quantifier": "all histories of deposits, withdrawals and swaps", "why_tests_cant": "invariant over unbounded histories; breaks only at tick boundaries", "anchors": ["programs/hmmcl-sandbox/src/cl_pool/mod.rs: Pool::_set_position", "programs/hmmcl-sandbox/src/cl_pool/mod.rs: Pool::cross_tick", "programs/hmmcl-sandbox/src/cl_pool/mod.rs: Pool::swap_within_tick_from_x"]}
{"id": "C26", "title": "Swaps never touch liquidity providers' records", "statement": "A swap leaves every position and every tick's gross and net liquidity, and the set of active ticks, unchanged.", "quantifier": "all pool states and swaps", "why_tests_cant": "frame condition over all states", "anchors": ["programs/hmmcl-sandbox/src/cl_pool/mod.rs: Pool::execute_swap_from_x", "programs/hmmcl-sandbox/src/cl_pool/mod.rs: Pool::execute_swap_from_y"]}
{"id": "C27", "title": "Reserves, pots and fee growth never become negative", "statement": "In every reachable state the x/y reserves, fee pots, adjustment pots, global liquidity and fee-growth counters are non-negative, and fee-growth counters never decrease.", "quantifier": "all histories of calls", "why_tests_cant": "invariant over unbounded histories", "anchors": ["programs/hmmcl-sandbox/src/cl_pool/mod.rs: Pool", "programs/hmmcl-sandbox/src/cl_pool/cl_components.rs: GlobalState"]}
{"id": "C28", "title": "The HMM adjustment changes only what the trader receives", "statement": "Two pools that differ only in the HMM parameter (and adjustment bookkeeping) and complete the same swap end with identical price, tick, liquidity, x and y reserves and fees, and report identical recv_amount, recv_fee and end_price; the outputs differ exactly by the adjustment, which is never negative and is kept in the adjustment pot.", "quantifier": "all pools, swaps, oracle prices, c values and logarithm implementations", "why_tests_cant": "relational property over two runs", "anchors": ["programs/hmmcl-sandbox/src/cl_pool/mod.rs: Pool::swap_within_tick_from_x", "programs/hmmcl-sandbox/src/cl_pool/mod.rs: Pool::swap_within_tick_from_y"]}
{"id": "C29", "title": "Deposits and withdrawals account liquidity and reserves exactly", "statement": "A completed deposit adds the same liquidity to the user's position as to both bound ticks (and to glbl_liq iff in range) and adds exactly the used amounts to the reserves; a completed withdrawal removes exactly the requested liquidity, never more than the position holds; the position disappears exactly when its liquidity reaches zero.", "quantifier": "all pool states, users, amounts, ranges", "why_tests_cant": "all states incl. repeated/partial operations", "anchors": ["programs/hmmcl-sandbox/src/cl_pool/mod.rs: Pool::deposit", "programs/hmmcl-sandbox/src/cl_pool/mod.rs: Pool::withdraw", "programs/hmmcl-sandbox/src/cl_pool/mod.rs: Pool::_set_position"]}
{"id": "C30", "title": "Operations on one position do not alter another", "statement": "A deposit or withdrawal by one user on one range leaves every other position (other user or other range) unchanged.", "quantifier": "all pool states and operations", "why_tests_cant": "frame condition", "anchors": ["programs/hmmcl-sandbox/src/cl_pool/mod.rs: Pool::_set_position"]}
{"id": "C31", "title": "A new position only earns fees accrued after it was opened", "statement": "Opening a position and closing it immediately, with no swap in between, pays out no fees.", "quantifier": "all pool states and positions", "why_tests_cant": "depends on the fee history of the pool", "anchors": ["programs/hmmcl-sandbox/src/cl_pool/mod.rs: Pool::_set_position", "programs/hmmcl-sandbox/src/cl_pool/mod.rs: Pool::fee_rng"]}
{"id": "C32", "title": "A liquidity provider can always withdraw", "statement": "If a position holds liquidity L, withdrawing any amount up to L completes.", "quantifier": "all reachable states, all positions", "why_tests_cant": "liveness over all histories", "anchors": ["programs/hmmcl-sandbox/src/cl_pool/mod.rs: Pool::withdraw"]}
{"id": "C33", "title": "Deposit followed by withdrawal never profits", "statement": "Depositing and immediately withdrawing the granted liquidity (no swap in between, fees aside) returns at most what was taken from the user, in each token.", "quantifier": "all pool states, amounts, ranges", "why_tests_cant": "double rounding over all inputs", "anchors": ["programs/hmmcl-sandbox/src/cl_pool/mod.rs: Pool::deposit", "programs/hmmcl-sandbox/src/cl_pool/mod.rs: Pool::withdraw"]}
{"id": "C34", "title": "A pool keeps trading in both directions for every tick spacing", "statement": "After any completed swap a pool with liquidity in range accepts a further swap in either direction without panicking on its own bookkeeping.", "quantifier": "all spacings, histories", "why_tests_cant": "depends on spacing and end tick", "anchors": ["programs/hmmcl-sandbox/src/cl_pool/mod.rs: Pool::get_right_limit_of_swap_within"]}
{"id": "C35", "title": "The tick bitmap is a set of ticks", "statement": "For ticks 0..79999: after activate_tick(t) t is active, after unset_tick(t) it is not, no other tick changes; a fresh bitmap is empty; ticks outside the range (including negatives) panic.", "quantifier": "all bitmaps, all i32 ticks", "why_tests_cant": "2^80000 bitmaps", "anchors": ["programs/hmmcl-sandbox/src/state/tick_bitmap.rs: PoolTickBitmap"]}
{"id": "C36", "title": "Next-tick search finds the nearest active tick", "statement": "get_next_tick(t, 0) is the greatest active tick below t and get_next_tick(t, 1) the least active tick above t, None iff there is none.", "quantifier": "all bitmaps, ticks and directions", "why_tests_cant": "2^80000 bitmaps", "anchors": ["programs/hmmcl-sandbox/src/state/tick_bitmap.rs: PoolTickBitmap::get_next_tick", "programs/hmmcl-sandbox/src/state/tick_bitmap.rs: byte_get_next_tick"]}
{"id": "C37", "title": "On-chain pool price and fees are constant", "statement": "After initialize_pool, no sequence of program instructions changes the pool's tick, root price or fee counters (there is no swap instruction); fee counters are zero, so deposits and withdrawals never offset fees.", "quantifier": "all sequences of instructions by all users", "why_tests_cant": "invariant over unbounded instruction histories", "anchors": ["programs/hmmcl-sandbox/src/lib.rs: hmmcl_sandbox", "programs/hmmcl-sandbox/src/instructions/deposit.rs: handle", "programs/hmmcl-sandbox/src/instructions/withdraw.rs: handle"]}
{"id": "C38", "title": "On-chain liquidity bookkeeping is the sum over positions", "statement": "After any sequence of instructions the pool's liquidity equals the sum of liquidity of positions whose range contains the current tick, and each tick account's gross/net liquidity equals the corresponding sums over positions.", "quantifier": "all sequences of instructions by all users", "why_tests_cant": "invariant over unbounded instruction histories, aliasing of accounts", "anchors": ["programs/hmmcl-sandbox/src/instructions/manage_position.rs: update_position", "programs/hmmcl-sandbox/src/instructions/manage_tick.rs: update_tick", "programs/hmmcl-sandbox/src/instructions/deposit.rs: Deposit", "programs/hmmcl-sandbox/src/instructions/withdraw.rs: Withdraw"]}
{"id": "C39", "title": "On-chain deposit respects the caller's limits", "statement": "A successful deposit debits at most token_x_amount and token_y_amount, credits exactly the debited amounts to the vaults and mints exactly floor(liquidity granted) LP tokens; a failed one changes nothing.", "quantifier": "all states and arguments", "why_tests_cant": "all inputs", "anchors": ["programs/hmmcl-sandbox/src/instructions/deposit.rs: handle"]}
{"id": "C40", "title": "On-chain token conservation", "statement": "No sequence of instructions creates or destroys X or Y tokens (users + vaults constant), vaults never go negative, and the LP supply equals the sum of LP balances.", "quantifier": "all sequences of instructions", "why_tests_cant": "invariant over unbounded histories", "anchors": ["programs/hmmcl-sandbox/src/instructions/deposit.rs: handle", "programs/hmmcl-sandbox/src/instructions/withdraw.rs: handle"]}
{"id": "C41", "title": "LP tokens are always backed by position liquidity", "statement": "At all times the LP token supply is at most the total liquidity held in positions.", "quantifier": "all sequences of instructions", "why_tests_cant": "rounding must never over-mint in any history", "anchors": ["programs/hmmcl-sandbox/src/instructions/deposit.rs: handle", "programs/hmmcl-sandbox/src/instructions/withdraw.rs: handle"]}
{"id": "C42", "title": "No user can take out more than was put in", "statement": "With no trading, a user who deposits (in any number of steps) and then withdraws receives at most what was debited, so other users' funds in the vault are safe.", "quantifier": "all sequences of instructions", "why_tests_cant": "needs adversarial sequences of dust deposits", "anchors": ["programs/hmmcl-sandbox/src/instructions/deposit.rs: handle", "programs/hmmcl-sandbox/src/instructions/withdraw.rs: handle"]}
{"id": "C43", "title": "On-chain deposits can be withdrawn", "statement": "After a successful deposit, the depositor can withdraw the granted (whole) liquidity.", "quantifier": "all states and arguments", "why_tests_cant": "depends on account aliasing (current tick = position bound)", "anchors": ["programs/hmmcl-sandbox/src/instructions/withdraw.rs: handle", "programs/hmmcl-sandbox/src/instructions/deposit.rs: Deposit"]}
{"id": "C44", "title": "The on-chain bitmap tracks ticks in use", "statement": "A tick's bit is set exactly while its gross liquidity is non-zero.", "quantifier": "all sequences of instructions", "why_tests_cant": "invariant over histories", "anchors": ["programs/hmmcl-sandbox/src/instructions/deposit.rs: handle", "programs/hmmcl-sandbox/src/instructions/withdraw.rs: handle"]}
{"id": "C45", "title": "On-chain withdrawals are limited to the caller's own position", "statement": "A successful withdrawal removes exactly the requested liquidity from the caller's own position, which must hold at least that much, burns exactly that many LP tokens of the caller, and leaves all other positions and other users' balances unchanged.", "quantifier": "all states, users and arguments", "why_tests_cant": "frame and authorisation property over all states", "anchors": ["programs/hmmcl-sandbox/src/instructions/withdraw.rs: handle", "programs/hmmcl-sandbox/src/instructions/withdraw.rs: Withdraw"]}
{"id": "C46", "title": "Tick prices are accurate powers of 1.0001", "statement": "The price (squared root price) of tick t never exceeds 1.0001^t and falls short of it by a relative error of at most 3t*10^-12.", "quantifier": "all ticks t < 2^19", "why_tests_cant": "tests compare a handful of ticks with recorded values; truncation accumulates over square-and-multiply steps for half a million ticks", "anchors": ["programs/hmmcl-sandbox/src/cl_pool/cl_math.rs: PoolMath::tick_to_rp"]}
{"id": "C47", "title": "Fee growth recorded at a tick never exceeds the global growth", "statement": "In every reachable state each of the four fee counters stored at an active tick lies between zero and the corresponding global fee-growth counter.", "quantifier": "all histories of calls", "why_tests_cant": "invariant over unbounded histories of crossings", "anchors": ["programs/hmmcl-sandbox/src/cl_pool/mod.rs: Pool::cross_tick", "programs/hmmcl-sandbox/src/cl_pool/mod.rs: Pool::update_tick"]}
{"id": "C48", "title": "A deposit is never refused because of fee bookkeeping", "statement": "Whenever a user offers amounts the pool can take for a valid range, the deposit is not aborted by the pool's own fee counters.", "quantifier": "all reachable pools, ranges and amounts", "why_tests_cant": "depends on which ticks recorded fees in the past", "anchors": ["programs/hmmcl-sandbox/src/cl_pool/mod.rs: Pool::fee_rng", "programs/hmmcl-sandbox/src/cl_pool/mod.rs: Pool::_set_position"]}
{"id": "C49", "title": "A swap larger than the pool can fill is filled in part", "statement": "A swap offering more than the active ticks can absorb takes what can be absorbed and returns, instead of aborting.", "quantifier": "all reachable pools and amounts", "why_tests_cant": "depends on accumulated rounding of reserves", "anchors": ["programs/hmmcl-sandbox/src/cl_pool/mod.rs: Pool::execute_swap_from_x", "programs/hmmcl-sandbox/src/cl_pool/mod.rs: Pool::execute_swap_from_y"]}
{"id": "C50", "title": "The recorded tick follows the price", "statement": "In every reachable state the current tick is below 2^22 and agrees with the current root price to within one tick, on ticks the spacing admits.", "quantifier": "all histories of calls", "why_tests_cant": "invariant over unbounded histories; tick search from varying start points", "anchors": ["programs/hmmcl-sandbox/src/cl_pool/mod.rs: Pool::swap_within_tick_from_x", "programs/hmmcl-sandbox/src/cl_pool/mod.rs: Pool::swap_within_tick_from_y", "programs/hmmcl-sandbox/src/cl_pool/mod.rs: Pool::cross_tick"]}
{"id": "C51", "title": "Splitting deposits does not pay", "statement": "Without swaps, no sequence of deposits and withdrawals returns more to a user than it took.", "quantifier": "all histories without swaps", "why_tests_cant": "needs many dust-sized deposits", "anchors": ["programs/hmmcl-sandbox/src/cl_pool/mod.rs: Pool::deposit", "programs/hmmcl-sandbox/src/cl_pool/mod.rs: Pool::withdraw"]}
{"id": "C52", "title": "Only the signer of an instruction can lose from it", "statement": "Executing any program or token instruction never lowers the X, Y or LP balance of a user who did not sign it, and never changes a position owned by somebody else.", "quantifier": "all reachable program states, all instructions, all users", "why_tests_cant": "tests try a handful of account combinations; the claim is over all of them", "anchors": ["programs/hmmcl-sandbox/src/instructions/deposit.rs", "programs/hmmcl-sandbox/src/instructions/withdraw.rs", "programs/hmmcl-sandbox/src/instructions/manage_position.rs"]}
{"id": "C53", "title": "No better than the pool price", "statement": "A swap never pays out more than the amount it takes (less the fee) is worth at the price before the swap.", "quantifier": "all reachable pools with consistent tick and price, all amounts, all oracle prices", "why_tests_cant": "rounding acts against the pool only for particular amount/liquidity combinations; sampled swaps do not hit them", "anchors": ["programs/hmmcl-sandbox/src/cl_pool/mod.rs: Pool::execute_swap_from_x", "programs/hmmcl-sandbox/src/cl_pool/mod.rs: Pool::execute_swap_from_y", "programs/hmmcl-sandbox/src/cl_pool/mod.rs: Pool::swap_within_tick_from_x", "programs/hmmcl-sandbox/src/cl_pool/mod.rs: Pool::swap_within_tick_from_y"]}
{"id": "C54", "title": "Trading back and forth is not free money", "statement": "No sequence of swaps leaves the traders with more X and no less Y than they started with.", "quantifier": "all reachable pools, all sequences of swaps of any length", "why_tests_cant": "gains per swap are tiny and depend on the order and size of swaps; needs unbounded sequences", "anchors": ["programs/hmmcl-sandbox/src/cl_pool/mod.rs: Pool::execute_swap_from_x", "programs/hmmcl-sandbox/src/cl_pool/mod.rs: Pool::execute_swap_from_y"]}
{"id": "C55", "title": "Reserves cover the positions", "statement": "At every moment the reserves are at least what all positions together are worth at the current price, computed exactly; a withdrawal never takes more than the withdrawn liquidity is worth.", "quantifier": "all histories of deposits, withdrawals and swaps of any length", "why_tests_cant": "solvency over unbounded histories; requires summing exact rational worth over all positions", "anchors": ["programs/hmmcl-sandbox/src/cl_pool/mod.rs: Pool::deposit", "programs/hmmcl-sandbox/src/cl_pool/mod.rs: Pool::withdraw", "programs/hmmcl-sandbox/src/cl_pool/mod.rs: Pool::execute_swap_from_x", "programs/hmmcl-sandbox/src/cl_pool/mod.rs: Pool::execute_swap_from_y"]}
{"id": "C56", "title": "Traders are paid by the curve", "statement": "A swap pays the trader what the exact curve gives for the amount taken: payout plus adjustment is no less than the fall in the exact worth of all positions, and the amount taken less the fee is no more than the rise, up to one or two units of 10^-12 per active tick (and a relative 10^-12).", "quantifier": "all reachable pools whose tick and liquidity agree with the price, all amounts, all oracle prices", "why_tests_cant": "unbounded number of crossed ticks and positions; the bound must not degrade with amounts", "anchors": ["programs/hmmcl-sandbox/src/cl_pool/mod.rs: Pool::execute_swap_from_x", "programs/hmmcl-sandbox/src/cl_pool/mod.rs: Pool::execute_swap_from_y", "programs/hmmcl-sandbox/src/cl_pool/mod.rs: Pool::swap_within_tick_from_x", "programs/hmmcl-sandbox/src/cl_pool/mod.rs: Pool::swap_within_tick_from_y"]}
{"id": "C57", "title": "The fee is the advertised fee", "statement": "The fee charged by a swap is the fee rate times the whole amount taken, at most one unit of 10^-12 too much and at most one unit per active tick (plus one) too little.", "quantifier": "all reachable pools, all amounts, all oracle prices", "why_tests_cant": "fee is computed in two different ways per tick and summed; error over unboundedly many ticks", "anchors": ["programs/hmmcl-sandbox/src/cl_pool/mod.rs: Pool::execute_swap_from_x", "programs/hmmcl-sandbox/src/cl_pool/mod.rs: Pool::execute_swap_from_y", "programs/hmmcl-sandbox/src/cl_pool/mod.rs: Pool::swap_within_tick_from_x", "programs/hmmcl-sandbox/src/cl_pool/mod.rs: Pool::swap_within_tick_from_y"]}
{"id": "C58", "title": "Deposits and withdrawals are exchanged at fair value", "statement": "A deposit takes no more than the created liquidity is worth at the current price and a withdrawal pays no less than the removed liquidity is worth, up to a relative 10^-12 and three units of 10^-12.", "quantifier": "all reachable pools, all users, ranges and amounts", "why_tests_cant": "needs exact rational worth of ranges at arbitrary prices", "anchors": ["programs/hmmcl-sandbox/src/cl_pool/mod.rs: Pool::deposit", "programs/hmmcl-sandbox/src/cl_pool/mod.rs: Pool::withdraw"]}
{"id": "C59", "title": "A deposit uses the offer", "statement": "A deposit takes all of at least one of the two offered amounts, up to a few units of 10^-12.", "quantifier": "all reachable pools, all offers and ranges", "why_tests_cant": "the loss depends on the width of the range and the position of the price in it", "anchors": ["programs/hmmcl-sandbox/src/cl_pool/mod.rs: Pool::deposit"]}
{"id": "C60", "title": "Swap fees reach the right positions", "statement": "What a swap charges (fee in the token sold, oracle adjustment in the token bought) is credited to the positions in proportion to their liquidity while the price is in their range: all of it up to one unit of 10^-12 per unit of liquidity and tick, never more than was charged; positions whose range the price does not touch get nothing and no position loses what it was due; of two nested ranges the wider gets at least as much per unit of liquidity, and the same if the price stays in the narrower.", "quantifier": "all reachable pools whose liquidity in range is right, all swaps that do not end within one tick of an active tick", "why_tests_cant": "depends on every sequence of tick crossings and on growth counters flipped at each of them", "anchors": ["programs/hmmcl-sandbox/src/cl_pool/mod.rs: Pool::cross_tick", "programs/hmmcl-sandbox/src/cl_pool/mod.rs: Pool::execute_swap_from_x", "programs/hmmcl-sandbox/src/cl_pool/mod.rs: Pool::execute_swap_from_y", "programs/hmmcl-sandbox/src/cl_pool/mod.rs: Pool::fee_rng"]}
{"id": "C61", "title": "The fee pots hold what is due", "statement": "Each of the four pots (fees and adjustments in X and Y) holds at least what all positions together are due from it, and no position is due a negative amount.", "quantifier": "all reachable pools", "why_tests_cant": "an invariant over all positions and all histories of deposits, withdrawals and swaps", "anchors": ["programs/hmmcl-sandbox/src/cl_pool/mod.rs: Pool::_set_position", "programs/hmmcl-sandbox/src/cl_pool/mod.rs: Pool::deposit", "programs/hmmcl-sandbox/src/cl_pool/mod.rs: Pool::withdraw", "programs/hmmcl-sandbox/src/cl_pool/mod.rs: Pool::cross_tick"]}
{"id": "C62", "title": "Integer powers are accurate and monotone", "statement": "d.pow(n) for a non-negative d and a positive integer n is never above the exact power; it is at most n units in the last place below it when d <= 1 and at most the fraction n * 10^-scale below it when d >= 1.  It never decreases when the base grows, and a larger base panics whenever a smaller one does.  For d >= 1 it is computed exactly when d^(2 * 2^floor(log2 n)) fits, up to the rounding of the squares.", "quantifier": "all decimals that are not negative, all exponents", "why_tests_cant": "the rounding errors of all intermediate squarings, for every base, scale and exponent", "anchors": ["programs/hmmcl-sandbox/src/decimal.rs: Decimal::pow (u128)", "programs/hmmcl-sandbox/src/decimal.rs: Decimal::mul"]}
{"id": "C63", "title": "Powers with a decimal exponent mean what they say", "statement": "d.pow(e) for a decimal exponent e returns d to the power e, up to one unit in the last place per square root, product and quotient; exponents 0, 1/4, 1/2, 1, 5/4, 3/2 of the same scale are always computed when the numbers fit, and an exponent that is not one of these, an integer or the negative of one is refused.", "quantifier": "all non-negative decimals, all exponents, all scales", "why_tests_cant": "depends on the rounded constants at every scale and on all exponents", "anchors": ["programs/hmmcl-sandbox/src/decimal.rs: Decimal::pow (Decimal)", "programs/hmmcl-sandbox/src/decimal.rs: Decimal::sqrt", "programs/hmmcl-sandbox/src/decimal.rs: Decimal::is_integer"]}
{"id": "C64", "title": "Every pool that can be created can be traded with an oracle price", "statement": "If a swap completes without an oracle price, it also completes when an oracle price is supplied, whatever HMM parameter C (0 <= C <= 2) the pool was created with.", "quantifier": "all reachable pools, all C accepted by Pool::new, all swaps and oracle prices", "why_tests_cant": "quantifies over C, prices, liquidity and amounts", "anchors": ["programs/hmmcl-sandbox/src/cl_pool/cl_math.rs: dx_from_l_drp_hmm", "programs/hmmcl-sandbox/src/cl_pool/cl_math.rs: dy_from_l_drp_hmm", "programs/hmmcl-sandbox/src/cl_pool/mod.rs: Pool::swap_within_tick_from_x", "programs/hmmcl-sandbox/src/cl_pool/mod.rs: Pool::new"]}
{"id": "C65", "title": "The natural logarithm is accurate wherever it is defined", "statement": "ln of a positive decimal returns the natural logarithm of its value within 2*10^-10 (plus one unit in the last place at smaller scales), and the logarithm of zero is refused.", "quantifier": "all positive decimals of scale up to 12", "why_tests_cant": "ten table lookups with accumulated rounding, for every value, and the f64 bit length near powers of two", "anchors": ["programs/hmmcl-sandbox/src/decimal.rs: Decimal::ln", "programs/hmmcl-sandbox/src/decimal.rs: Decimal::log_table_value", "programs/hmmcl-sandbox/src/decimal.rs: Decimal::bit_length"]}
{"id": "C66", "title": "The logarithmic tick lookup inverts the price of a tick", "statement": "rp_to_tick of the root price of a tick returns that tick; for a price between two ticks it returns the lower one, or the upper one when left_to_right asks for it.", "quantifier": "all ticks and all root prices", "why_tests_cant": "a quotient of two rounded logarithms that must land on the right side of an integer for every tick", "anchors": ["programs/hmmcl-sandbox/src/cl_pool/cl_math.rs: rp_to_tick", "programs/hmmcl-sandbox/src/cl_pool/cl_math.rs: tick_to_rp", "programs/hmmcl-sandbox/src/decimal.rs: Decimal::ln"]}
{"id": "C67", "title": "The HMM adjustment at C = 1 follows the logarithmic curve", "statement": "With C = 1 the adjusted amounts for a move of the root price from a to b with oracle root price o and liquidity l are l/o*(ln a - ln b) of X and l*o*(ln b - ln a) of Y, up to rounding.", "quantifier": "all liquidities, prices and oracle prices in the range of the logarithm", "why_tests_cant": "an inequality about real logarithms over all prices", "anchors": ["programs/hmmcl-sandbox/src/cl_pool/cl_math.rs: dx_from_l_drp_hmm", "programs/hmmcl-sandbox/src/cl_pool/cl_math.rs: dy_from_l_drp_hmm", "programs/hmmcl-sandbox/src/cl_pool/mod.rs: Pool::swap_within_tick_from_x"]}
{"id": "C68", "title": "The HMM adjustment for C = 5/4, 3/2 and 2 follows the power curve", "statement": "With C = 5/4, 3/2 or 2 the adjusted amounts for a move of the root price from a to b with oracle root price o and liquidity l are l/o^C*(a^(C-1)-b^(C-1))/(C-1) of X and l*o^C*(a^(1-C)-b^(1-C))/(C-1) of Y, up to a rounding error of a few units of 10^-12 times the liquidity.", "quantifier": "all liquidities, root prices and oracle root prices from 1 up for which the computation completes", "why_tests_cant": "an inequality about real powers for all prices", "anchors": ["programs/hmmcl-sandbox/src/cl_pool/cl_math.rs: dx_from_l_drp_hmm", "programs/hmmcl-sandbox/src/cl_pool/cl_math.rs: dy_from_l_drp_hmm"]}
{"id": "C69", "title": "With an oracle price the trader gets at least the worse of the oracle price and the final price", "statement": "For C = 0, 5/4, 3/2 and 2, what a swap pays is at least the input left after the fee valued at the lower of the oracle price and the price the swap ends at (from Y: the higher), up to rounding in proportion to the liquidity and the number of active ticks.", "quantifier": "all settled reachable pools, amounts and oracle prices from 1 up, swaps crossing any number of ticks", "why_tests_cant": "an inequality over whole swaps of any length and a real-valued curve", "anchors": ["programs/hmmcl-sandbox/src/cl_pool/mod.rs: Pool::swap_within_tick_from_x", "programs/hmmcl-sandbox/src/cl_pool/mod.rs: Pool::swap_within_tick_from_y", "programs/hmmcl-sandbox/src/cl_pool/mod.rs: Pool::execute_swap_from_x", "programs/hmmcl-sandbox/src/cl_pool/mod.rs: Pool::execute_swap_from_y"]}
{"id": "C70", "title": "An oracle price never stops a swap", "statement": "In a pool whose C is one of the values with a working curve (0, 5/4, 3/2, 2), a swap that completes without an oracle price completes with one; in any pool an oracle price that is not better than the pool's own price does not change its outcome.", "quantifier": "all settled reachable pools, amounts and oracle prices", "why_tests_cant": "depends on the rounding of a power curve at prices very close to each other", "anchors": ["programs/hmmcl-sandbox/src/cl_pool/mod.rs: Pool::swap_within_tick_from_x", "programs/hmmcl-sandbox/src/cl_pool/mod.rs: Pool::swap_within_tick_from_y"]}
{"id": "C71", "title": "The prices a swap reports are right", "statement": "The final price a completed swap reports is the square of the pool's new root price, and the average price it reports is the amount of Y moved over the amount of X moved, both cut off at 12 digits; a swap that took nothing reports average 0.", "quantifier": "all reachable pools, amounts and oracle prices, swaps of any length in either direction", "why_tests_cant": "an inequality for every completed swap", "anchors": ["programs/hmmcl-sandbox/src/cl_pool/mod.rs: Pool::execute_swap_from_x", "programs/hmmcl-sandbox/src/cl_pool/mod.rs: Pool::execute_swap_from_y", "programs/hmmcl-sandbox/src/cl_pool/mod.rs: SwapResult"]}
{"id": "C72", "title": "A new pool starts at the price asked for", "statement": "A pool that is created starts within one tick spacing, and a relative rounding error of 1/100000, of the price asked for.", "quantifier": "all root prices, tick spacings, curve parameters and fee rates that pool creation accepts", "why_tests_cant": "depends on the tick search for every price", "anchors": ["programs/hmmcl-sandbox/src/cl_pool/mod.rs: Pool::new", "programs/hmmcl-sandbox/src/cl_pool/cl_math.rs: rp_to_tick_loop", "programs/hmmcl-sandbox/src/cl_pool/cl_math.rs: tick_to_rp"]}
{"id": "C73", "title": "Pool creation accepts only parameters the pool can be traded with", "statement": "Pool creation rejects negative prices and fee rates, curve parameters outside 0 to 2, a zero tick spacing and every fee rate with which no swap can be made or a swap takes its whole input as the fee.", "quantifier": "all parameters; all pools reachable from them and all swaps", "why_tests_cant": "the bad parameters show only in later swaps of any kind", "anchors": ["programs/hmmcl-sandbox/src/cl_pool/mod.rs: Pool::new", "programs/hmmcl-sandbox/src/cl_pool/mod.rs: Pool::swap_within_tick_from_x", "programs/hmmcl-sandbox/src/cl_pool/mod.rs: Pool::swap_within_tick_from_y"]}
{"id": "C74", "title": "Offering more is paid at least as much", "statement": "Of two swaps in the same direction from the same pool state with the same oracle price, the one offering more is paid at least as much by the curve (payout plus oracle adjustment kept back; with the oracle adjustment off, the payout itself).", "quantifier": "all reachable pools, all pairs of amounts, all oracle prices, swaps of any length", "why_tests_cant": "compares all pairs of amounts; rounding can break it by single units anywhere", "anchors": ["programs/hmmcl-sandbox/src/cl_pool/mod.rs: Pool::execute_swap_from_x", "programs/hmmcl-sandbox/src/cl_pool/mod.rs: Pool::execute_swap_from_y", "programs/hmmcl-sandbox/src/cl_pool/cl_math.rs: dx_from_l_drp", "programs/hmmcl-sandbox/src/cl_pool/cl_math.rs: dy_from_l_drp"]}
{"id": "C75", "title": "Splitting a swap neither gains nor loses", "statement": "Two sequences of swaps in the same direction from the same state that take the same total amount are paid the same total by the curve, up to an explicit rounding allowance per swap (one or two units of 10^-12 per active tick and 10^-12 of the liquidity and the amounts).", "quantifier": "all reachable pools and all sequences of swaps of any number and size, any oracle prices, each starting with tick and liquidity in agreement with the price", "why_tests_cant": "compares all ways of splitting an amount, with no bound on the number of pieces", "anchors": ["programs/hmmcl-sandbox/src/cl_pool/mod.rs: Pool::execute_swap_from_x", "programs/hmmcl-sandbox/src/cl_pool/mod.rs: Pool::execute_swap_from_y"]}
{"id": "C76", "title": "Range bounds computed from amounts give ranges that need those amounts", "statement": "A lower or upper range bound computed from liquidity or from the two amounts is such that the position in that range needs the given amounts, up to an explicit rounding allowance; if no such bound exists the function panics.", "quantifier": "all liquidity, price and amount values of any scale", "why_tests_cant": "ranges over all numbers; the failing inputs are those for which no bound exists", "anchors": ["programs/hmmcl-sandbox/src/cl_pool/cl_math.rs: rpa_from_l_rp_y", "programs/hmmcl-sandbox/src/cl_pool/cl_math.rs: rpb_from_l_rp_x", "programs/hmmcl-sandbox/src/cl_pool/cl_math.rs: rpa_from_x_y_rp_rpb", "programs/hmmcl-sandbox/src/cl_pool/cl_math.rs: rpb_from_x_y_rp_rpa"]}
{"id": "C77", "title": "A swap the pool can fill completes", "statement": "If a swap of some amount completes, so does a swap of any smaller positive amount made from the same state.", "quantifier": "all reachable pools and all pairs of amounts", "why_tests_cant": "a claim about all amounts; the amounts that abort form small windows whose position depends on the state", "anchors": ["programs/hmmcl-sandbox/src/cl_pool/mod.rs: Pool::swap_within_tick_from_x", "programs/hmmcl-sandbox/src/cl_pool/mod.rs: Pool::swap_within_tick_from_y", "programs/hmmcl-sandbox/src/cl_pool/cl_components.rs: SwapOutput::new"]}
{"id": "C78", "title": "Every range that accepts deposits can be traded in", "statement": "Swaps complete inside every range a position can use, including ranges that start at tick 0 (root price 1).", "quantifier": "all reachable pools, amounts and oracle prices", "why_tests_cant": "depends on the position of the active ticks and of the price; tests never put a range at tick 0", "anchors": ["programs/hmmcl-sandbox/src/cl_pool/mod.rs: Pool::swap_within_tick_from_x", "programs/hmmcl-sandbox/src/cl_pool/mod.rs: Pool::swap_within_tick_from_y", "programs/hmmcl-sandbox/src/cl_pool/mod.rs: Pool::cross_tick"]}
{"id": "C79", "title": "f64 pool: the reserves stay numbers", "statement": "In the f64 version of the pool, whatever calls succeed, both reserves are finite numbers.", "quantifier": "all reachable f64 pools, all f64 arguments, every mathematical library", "why_tests_cant": "ranges over all histories and all f64 arguments including the ones that make a formula divide by zero", "anchors": ["programs/hmmcl-sandbox/src/cl_pool_float/mod.rs: Pool::deposit", "programs/hmmcl-sandbox/src/cl_pool_float/cl_math.rs: PoolMath::liq_from_x_y_rp_rng"]}
{"id": "C80", "title": "f64 pool: ticks record the liquidity of the positions that end there", "statement": "The gross and net liquidity recorded at every tick are the sums over the positions ending there, and ticks without such positions are inactive.", "quantifier": "all reachable f64 pools (exact for whole amounts with a total below 2^52)", "why_tests_cant": "floating-point addition is not associative; whether additions and subtractions cancel depends on the whole history", "anchors": ["programs/hmmcl-sandbox/src/cl_pool_float/mod.rs: Pool::update_tick", "programs/hmmcl-sandbox/src/cl_pool_float/mod.rs: Pool::set_position", "programs/hmmcl-sandbox/src/cl_pool_float/cl_components.rs: TickState"]}
{"id": "C81", "title": "f64 pool: depositing and withdrawing at once gains nothing", "statement": "A provider that deposits and at once withdraws the liquidity obtained gets back no more of either token than it paid.", "quantifier": "all reachable f64 pools, amounts and ranges", "why_tests_cant": "depends on the rounding of every operation and on the fees earned before", "anchors": ["programs/hmmcl-sandbox/src/cl_pool_float/mod.rs: Pool::deposit", "programs/hmmcl-sandbox/src/cl_pool_float/mod.rs: Pool::withdraw"]}
{"id": "C82", "title": "f64 pool: a swap takes no more than offered", "statement": "The amount a swap takes in is at least zero and at most the amount offered, up to an explicit relative rounding error of two units of 2^-53.", "quantifier": "all reachable f64 pools, amounts, oracle prices and any number of ranges crossed", "why_tests_cant": "the rounding errors of any number of steps could add up; the claim is that they do not", "anchors": ["programs/hmmcl-sandbox/src/cl_pool_float/mod.rs: Pool::execute_swap_from_x", "programs/hmmcl-sandbox/src/cl_pool_float/mod.rs: Pool::execute_swap_from_y"]}
{"id": "C83", "title": "f64 pool: calls leave other positions alone", "statement": "Swaps change no position and no liquidity recorded at a tick; deposits and withdrawals change only the position of the caller in the given range and the two ticks at its ends.", "quantifier": "all reachable f64 pools and all calls", "why_tests_cant": "a frame property over the whole state and all arguments", "anchors": ["programs/hmmcl-sandbox/src/cl_pool_float/mod.rs: Pool::deposit", "programs/hmmcl-sandbox/src/cl_pool_float/mod.rs: Pool::withdraw", "programs/hmmcl-sandbox/src/cl_pool_float/mod.rs: Pool::execute_swap_from_x", "programs/hmmcl-sandbox/src/cl_pool_float/mod.rs: Pool::execute_swap_from_y"]}
{"id": "C84", "title": "f64 pool: providers can withdraw what they hold", "statement": "A provider can withdraw the liquidity recorded in its position.", "quantifier": "all reachable f64 pools and positions", "why_tests_cant": "depends on the rounding of the whole history, including the calls of other providers", "anchors": ["programs/hmmcl-sandbox/src/cl_pool_float/mod.rs: Pool::withdraw", "programs/hmmcl-sandbox/src/cl_pool_float/mod.rs: Pool::fee_rng", "programs/hmmcl-sandbox/src/cl_pool_float/mod.rs: Pool::update_tick"]}
{"id": "C85", "title": "f64 pool: any range accepts deposits", "statement": "A deposit of positive amounts between two different ticks is accepted.", "quantifier": "all reachable f64 pools, ranges and amounts", "why_tests_cant": "depends on which ticks are active and on the fee growth recorded outside them", "anchors": ["programs/hmmcl-sandbox/src/cl_pool_float/mod.rs: Pool::set_position", "programs/hmmcl-sandbox/src/cl_pool_float/mod.rs: Pool::fee_rng"]}
{"id": "C86", "title": "f64 pool: swaps are possible with any tick spacing", "statement": "While there is liquidity in range, swaps in both directions are possible in pools of every tick spacing.", "quantifier": "all f64 pools with ticks below 2^32, spacings, amounts and oracle prices", "why_tests_cant": "ranges over all price ticks that are not multiples of the spacing", "anchors": ["programs/hmmcl-sandbox/src/cl_pool_float/mod.rs: Pool::get_right_limit_of_swap_within", "programs/hmmcl-sandbox/src/cl_pool_float/mod.rs: Pool::execute_swap_from_y", "programs/hmmcl-sandbox/src/cl_pool_float/cl_math.rs: PoolMath::tk_to_possible_tk"]}
{"id": "C87", "title": "f64 pool: X swaps with C = 1 pay the curve", "statement": "With C = 1 a swap of X towards the oracle price pays out according to the logarithmic curve.", "quantifier": "all reachable f64 pools, prices, oracle prices, amounts and every library whose ln is not negative from 1 on", "why_tests_cant": "quantifies over all prices and over the platform's logarithm", "anchors": ["programs/hmmcl-sandbox/src/cl_pool_float/cl_math.rs: PoolMath::dy_from_l_drp_hmm", "programs/hmmcl-sandbox/src/cl_pool_float/mod.rs: Pool::swap_within_tick_from_X"]}
{"id": "C88", "title": "f64 pool: rounding a tick to the spacing is exact", "statement": "Rounding a u32 tick down to the tick spacing through f64 division gives exactly the largest multiple of the spacing not above the tick.", "quantifier": "all u32 ticks and spacings", "why_tests_cant": "2^64 pairs; one rounding up of the quotient would give the next multiple", "anchors": ["programs/hmmcl-sandbox/src/cl_pool_float/cl_math.rs: PoolMath::tk_to_possible_tk"]}
{"id": "C89", "title": "The bit length found with floating point is the right one", "statement": "The bit length that ln computes as the f64 quotient ln x / ln 2, rounded down, is the integer b with 2^b <= x < 2^(b+1); hence the claims on ln, on ticks by logarithms and on the adjustment at C = 1 hold for the code as it runs.", "quantifier": "all decimals at the compute scale and every mathematical library that is right within one unit in the last place", "why_tests_cant": "the result depends on the platform's ln and on rounding next to powers of two; no finite set of inputs or platforms settles it", "anchors": ["programs/hmmcl-sandbox/src/decimal.rs: Decimal::bit_length", "programs/hmmcl-sandbox/src/decimal.rs: Decimal::ln"]}
{"id": "C90", "title": "Converting a decimal to f64 keeps its value", "statement": "The f64 obtained from a decimal is the decimal's value, sign included, up to a relative error of five half-units in the last place.", "quantifier": "all decimals with a scale up to 38", "why_tests_cant": "2^128 mantissas times 39 scales; three roundings interact", "anchors": ["programs/hmmcl-sandbox/src/decimal.rs: impl Into<f64> for Decimal"]}
{"id": "C91", "title": "f64 pool: the price of a tick belongs to that tick", "statement": "In the f64 version of the pool, converting a tick to its root price and back gives the tick again, also after alignment to the tick spacing.", "quantifier": "all ticks whose price is far from overflow (up to 14000000), all spacings, every mathematical library that is right within one unit in the last place", "why_tests_cant": "millions of ticks and unknown last bits of the platform's powf and ln", "anchors": ["programs/hmmcl-sandbox/src/cl_pool_float/cl_math.rs: tick_to_rp", "programs/hmmcl-sandbox/src/cl_pool_float/cl_math.rs: rp_to_tick", "programs/hmmcl-sandbox/src/cl_pool_float/cl_math.rs: rp_to_possible_tk"]}
{"id": "C92", "title": "f64 pool: the funds are what was paid in minus what was paid out", "statement": "At every point the amounts of a token that the f64 pool records (backing liquidity, HMM adjustments and fees together) are the sum of the amounts users were told they paid minus those they were told they received, up to 24 rounding units (2^-53 of the largest amount) per call and loop pass.", "quantifier": "all histories of deposits, withdrawals and swaps of any length with amounts up to 2^1000, all mathematical libraries", "why_tests_cant": "the error of a history is the sum of the errors of all its additions, none of which a test can see", "anchors": ["programs/hmmcl-sandbox/src/cl_pool_float/mod.rs: Pool::deposit", "programs/hmmcl-sandbox/src/cl_pool_float/mod.rs: Pool::withdraw", "programs/hmmcl-sandbox/src/cl_pool_float/mod.rs: Pool::execute_swap_from_x", "programs/hmmcl-sandbox/src/cl_pool_float/mod.rs: Pool::execute_swap_from_y"]}
{"id": "C93", "title": "f64 pool: the liquidity in force is that of the positions around the price", "statement": "The liquidity the f64 pool trades with is the total of the positions whose range contains the current tick.", "quantifier": "all histories with whole amounts of liquidity, all mathematical libraries", "why_tests_cant": "needs a swap that ends exactly on a tick price, which depends on the last bit of several roundings", "anchors": ["programs/hmmcl-sandbox/src/cl_pool_float/mod.rs: Pool::_set_position", "programs/hmmcl-sandbox/src/cl_pool_float/mod.rs: Pool::swap_within_tick_from_x", "programs/hmmcl-sandbox/src/cl_pool_float/mod.rs: Pool::swap_within_tick_from_y", "programs/hmmcl-sandbox/src/cl_pool_float/mod.rs: Pool::cross_tick"]}
{"id": "C94", "title": "f64 pool: no reserve becomes negative", "statement": "The f64 pool never records a negative amount of a token: it does not send what it does not have.", "quantifier": "all reachable states and all calls", "why_tests_cant": "the reserves go negative only after histories that leave liquidity in force without positions", "anchors": ["programs/hmmcl-sandbox/src/cl_pool_float/mod.rs: Pool::withdraw", "programs/hmmcl-sandbox/src/cl_pool_float/mod.rs: Pool::swap_within_tick_from_x", "programs/hmmcl-sandbox/src/cl_pool_float/mod.rs: Pool::swap_within_tick_from_y"]}
{"id": "C95", "title": "Withdrawing in parts neither gains nor loses", "statement": "Whenever a withdrawal completes, withdrawing the same liquidity in two parts completes as well, pays at most as much and at most 3 units of the last digit of X and 2 of Y less, and pays all fees with the first part.", "quantifier": "all reachable pools, all positions, all ways to split the liquidity", "why_tests_cant": "every split and every fee state would have to be tried; the rounding loss depends on the digits of all amounts", "anchors": ["programs/hmmcl-sandbox/src/cl_pool/mod.rs: Pool::withdraw", "programs/hmmcl-sandbox/src/cl_pool/mod.rs: Pool::_set_position", "programs/hmmcl-sandbox/src/cl_pool/cl_math.rs: PoolMath::x_from_l_rp_rng", "programs/hmmcl-sandbox/src/cl_pool/cl_math.rs: PoolMath::y_from_l_rp_rng"]}
{"id": "C96", "title": "The order of two providers' deposits does not matter", "statement": "If two deposits into different positions complete one after the other, they also complete in the opposite order; each provider is told the same figures and the pool ends up recording the same.", "quantifier": "all reachable pools, all pairs of deposits into different positions (also with shared bounds)", "why_tests_cant": "there are as many pairs of calls as histories; whoever orders the transactions can choose", "anchors": ["programs/hmmcl-sandbox/src/cl_pool/mod.rs: Pool::deposit", "programs/hmmcl-sandbox/src/cl_pool/mod.rs: Pool::_set_position", "programs/hmmcl-sandbox/src/cl_pool/mod.rs: Pool::fee_rng"]}
{"id": "C97", "title": "The order of two providers' withdrawals does not matter", "statement": "If two withdrawals from different positions complete one after the other, they also complete in the opposite order; each provider is told the same figures and the pool ends up recording the same.", "quantifier": "all reachable pools, all pairs of withdrawals of positive amounts from different positions", "why_tests_cant": "depends on which ticks disappear with the first withdrawal, and on the reserves", "anchors": ["programs/hmmcl-sandbox/src/cl_pool/mod.rs: Pool::withdraw", "programs/hmmcl-sandbox/src/cl_pool/mod.rs: Pool::_set_position", "programs/hmmcl-sandbox/src/cl_pool/mod.rs: Pool::fee_rng"]}
{"id": "C98", "title": "The order of a deposit and another provider's withdrawal does not matter", "statement": "If a deposit and a withdrawal from another position both complete in either order, each provider is told the same figures now and later.", "quantifier": "all reachable pools, deposits and withdrawals", "why_tests_cant": "needs a range whose only other provider leaves, with fees collected before", "anchors": ["programs/hmmcl-sandbox/src/cl_pool/mod.rs: Pool::deposit", "programs/hmmcl-sandbox/src/cl_pool/mod.rs: Pool::withdraw", "programs/hmmcl-sandbox/src/cl_pool/mod.rs: Pool::update_tick", "programs/hmmcl-sandbox/src/cl_pool/mod.rs: Pool::fee_rng"]}
{"id": "C99", "title": "Different on-chain accounts have different addresses", "statement": "Two of the program's accounts (pool, bitmap, tick, position, token vaults, LP vault) with the same address are the same account: same kind, same keys, same ticks. Otherwise a collision of the hash function is known. The seeds are within Solana's limits.", "quantifier": "all keys, all ticks and bounds, all bumps, any hash function", "why_tests_cant": "the seeds are hashed without separators, so kinds with seeds of different lengths could meet for some keys; tests see a few addresses", "anchors": ["programs/hmmcl-sandbox/src/lib.rs: constants", "programs/hmmcl-sandbox/src/instructions/initialize_pool.rs: InitializePool", "programs/hmmcl-sandbox/src/instructions/manage_tick.rs: InitializeTick", "programs/hmmcl-sandbox/src/instructions/manage_position.rs: CreatePosition", "programs/hmmcl-sandbox/src/instructions/manage_bitmap.rs: InitializeBitmap"]}
{"id": "C100", "title": "The on-chain accounts fit and are read back unchanged", "statement": "In every state that transactions can lead to, the pool, tick and position accounts are read back as they were written (no figure is cut off by the width of its field), and fill no more bytes than the space they were created with.", "quantifier": "all histories of transactions, all keys and bumps", "why_tests_cant": "needs a bound on every stored figure over all histories", "anchors": ["programs/hmmcl-sandbox/src/state/pool_state.rs: PoolState", "programs/hmmcl-sandbox/src/state/tick_state.rs: TickState", "programs/hmmcl-sandbox/src/state/position_state.rs: PositionState", "programs/hmmcl-sandbox/src/state/fees.rs: Fee"]}
{"id": "C101", "title": "Deposits in which X is the scarcer token are accepted", "statement": "A deposit of amounts the user has, into a valid range, is accepted whichever of the two tokens decides how much liquidity it makes.", "quantifier": "all reachable pool states and all states of the program on chain, all users, ranges and amounts", "why_tests_cant": "whether the deposit is refused depends on the decimals lost in the product of two root prices, a different number for every pair of prices; tests use a few round amounts", "anchors": ["programs/hmmcl-sandbox/src/cl_pool/mod.rs: deposit", "programs/hmmcl-sandbox/src/cl_pool/cl_math.rs: liq_x_only, x_from_l_rp_rng", "programs/hmmcl-sandbox/src/instructions/deposit.rs: handle"]}
{"id": "C102", "title": "On chain, nobody can change or block another user's deposit by going first", "statement": "The same deposit instruction grants the same liquidity and LP tokens and costs the same amounts in whatever state of the pool it succeeds; and a deposit that would succeed now still succeeds after any transactions signed by others, as long as total liquidity and LP supply stay within their integer types.", "quantifier": "all reached states, all deposits, all lists of transactions of other users (failing ones included)", "why_tests_cant": "a test fixes one history; the claim ranges over every history an attacker may insert before the deposit", "anchors": ["programs/hmmcl-sandbox/src/instructions/deposit.rs: handle", "programs/hmmcl-sandbox/src/instructions/withdraw.rs: handle"]}
{"id": "C103", "title": "On chain, the order in which transactions land does not matter", "statement": "If a set of transactions all succeed in two different orders from the same state, both orders lead to the same accounts: the same balances of every holder, LP supply, pool, positions, ticks and bitmap.", "quantifier": "all reached states, all lists of instructions of any length and all their permutations", "why_tests_cant": "the number of orders grows factorially with the number of transactions and any state may be the starting one", "anchors": ["programs/hmmcl-sandbox/src/instructions/deposit.rs: handle", "programs/hmmcl-sandbox/src/instructions/withdraw.rs: handle", "programs/hmmcl-sandbox/src/instructions/manage_position.rs", "programs/hmmcl-sandbox/src/instructions/manage_tick.rs"]}
{"id": "C104", "title": "On the shared ledger every pool behaves as if it were alone", "statement": "Whatever accounts callers pass and however many pools, mints and users there are, the accounts of a pool and the token balances of its users are at every moment those of a reachable state of the single-pool program, and every further history moves them exactly as that program does on the instructions addressed to the pool, plus ordinary transfers, burning and minting of tokens by their owners. (Pools created on an LP mint without tokens, whose tokens are not its own LP token.)", "quantifier": "all initial ledgers of mints and token accounts, all histories of instructions with arbitrary accounts, all pools", "why_tests_cant": "tests pass the intended accounts of one pool; the claim is about every combination of accounts that an attacker may pass, and every number of pools", "anchors": ["programs/hmmcl-sandbox/src/instructions/deposit.rs: Deposit, handle", "programs/hmmcl-sandbox/src/instructions/withdraw.rs: Withdraw, handle", "programs/hmmcl-sandbox/src/instructions/initialize_pool.rs", "programs/hmmcl-sandbox/src/instructions/manage_position.rs", "programs/hmmcl-sandbox/src/instructions/manage_tick.rs", "programs/hmmcl-sandbox/src/instructions/manage_bitmap.rs"]}
{"id": "C105", "title": "Pools cannot touch each other's accounts", "statement": "The pool, bitmap, tick and position accounts of a pool change only by instructions called for that pool; tokens leave its vaults only by withdrawals from it; its LP tokens are created only by deposits into it. Every pool sits at the address of its LP mint, owns its two vaults and is the authority of the mint.", "quantifier": "all ledgers reached by any history, all further histories, all pools", "why_tests_cant": "a statement about all account combinations and all histories", "anchors": ["programs/hmmcl-sandbox/src/instructions/deposit.rs: Deposit", "programs/hmmcl-sandbox/src/instructions/withdraw.rs: Withdraw", "programs/hmmcl-sandbox/src/instructions/initialize_pool.rs: InitializePool"]}
{"id": "C106", "title": "Nobody loses tokens, a position or control of a mint without signing", "statement": "In a history in which a key never signs, no token account owned by the key loses tokens or changes owner, no mint it controls grows or changes authority, and none of its positions changes.", "quantifier": "all ledgers reached, all histories without the key's signature, all instructions with any accounts", "why_tests_cant": "requires that no combination of accounts and instructions of others ever works", "anchors": ["programs/hmmcl-sandbox/src/instructions/deposit.rs: Deposit", "programs/hmmcl-sandbox/src/instructions/withdraw.rs: Withdraw", "programs/hmmcl-sandbox/src/instructions/manage_position.rs"]}
{"id": "C107", "title": "LP tokens in existence are backed by liquidity", "statement": "The supply of a pool's LP token never exceeds the total liquidity of the positions in the pool.", "quantifier": "all histories, all pools", "why_tests_cant": "depends on who controlled the LP mint before the pool was created", "anchors": ["programs/hmmcl-sandbox/src/instructions/initialize_pool.rs: InitializePool", "programs/hmmcl-sandbox/src/instructions/deposit.rs: handle"]}
{"id": "C108", "title": "Who decides on the tokens and the price of a pool", "statement": "Given an LP mint whose authority is the pool address, anybody can create its pool with any two different mints and any starting tick below 2^19, without a signature of the mint's creator; afterwards nobody can create it again, and no instruction ever changes its tokens, tick or price.", "quantifier": "all ledgers reached, all mints and ticks, all further histories", "why_tests_cant": "a possibility claim in every state and an impossibility claim over all histories", "anchors": ["programs/hmmcl-sandbox/src/instructions/initialize_pool.rs", "programs/hmmcl-sandbox/src/instructions/deposit.rs: handle", "programs/hmmcl-sandbox/src/instructions/withdraw.rs: handle"]}
{"id": "C109", "title": "A deposit is paid with tokens the depositor has", "statement": "When a deposit succeeds, what the vaults receive was in the depositor's accounts before and is taken from them.", "quantifier": "all ledgers reached, all deposits with any accounts", "why_tests_cant": "tests use three different mints; nothing in the program demands it", "anchors": ["programs/hmmcl-sandbox/src/instructions/deposit.rs: Deposit, handle", "programs/hmmcl-sandbox/src/instructions/initialize_pool.rs: InitializePool"]}
{"id": "C110", "title": "Every swap of the f64 pool ends", "statement": "The loops of the two swaps of the f64 pool stop for every reachable pool, every amount and every oracle price, infinities and NaN included, whatever the platform's log and pow return: after finitely many passes the swap has completed or aborted.", "quantifier": "all libms, reachable pools, f64 amounts and oracle prices", "why_tests_cant": "the loop condition compares a rounded running total with the amount; whether a pass can fail to advance it is a question about all f64 values", "anchors": ["programs/hmmcl-sandbox/src/cl_pool_float/mod.rs: execute_swap_from_x, execute_swap_from_y, try_get_in_range, get_left_limit, get_right_limit"]}
{"id": "C111", "title": "On the ledger everybody can do what the single-pool program allows", "statement": "Whenever the single-pool program accepts an instruction of a user for a pool, the user can execute it on the ledger by passing the accounts derived from the pool and token accounts of its own that hold enough, with the same outcome; this stays so along every history of the ledger. Together with C104 the accounts and constraints of the six instructions are neither too loose nor too strict.", "quantifier": "all ledgers, pools, histories, instructions and token accounts", "why_tests_cant": "a test shows that one call passes its constraints; that no state of other accounts makes a legitimate call fail needs an invariant of all histories", "anchors": ["programs/hmmcl-sandbox/src/instructions/deposit.rs: Deposit, handle", "programs/hmmcl-sandbox/src/instructions/withdraw.rs: Withdraw, handle", "programs/hmmcl-sandbox/src/instructions/manage_tick.rs: InitializeTick", "programs/hmmcl-sandbox/src/instructions/manage_position.rs: CreatePosition", "programs/hmmcl-sandbox/src/instructions/manage_bitmap.rs: InitializeBitmap"]}
{"id": "C112", "title": "On the ledger nobody can block a deposit or change its terms", "statement": "A deposit that a user can make now, the user can also make after any transactions of others, with any pools, accounts and tokens; it then takes the same amounts from the user's token accounts, mints the same LP tokens and adds the same liquidity, as long as the total liquidity fits 128 bits and the LP supply 64 bits.", "quantifier": "all ledgers, pools, users, deposits and histories of others", "why_tests_cant": "quantifies over what everybody else may do in between", "anchors": ["programs/hmmcl-sandbox/src/instructions/deposit.rs: handle"]}
{"id": "C113", "title": "On the ledger a deposit can be withdrawn", "statement": "What a user has deposited on the ledger it can withdraw, at once and for any part of the LP tokens received.", "quantifier": "all ledgers, pools, users, deposits, amounts", "why_tests_cant": "the withdrawal must succeed for every price, range and state of the other accounts", "anchors": ["programs/hmmcl-sandbox/src/instructions/deposit.rs: handle", "programs/hmmcl-sandbox/src/instructions/withdraw.rs: handle"]}
{"id": "C114", "title": "What a deposit on the ledger takes, gives and leaves alone", "statement": "A deposit into a pool succeeds only with the accounts derived from the pool, the position and the pool's tick; it takes from the two named token accounts of the signer what the granted liquidity is worth at the pool's price, never more than offered, adds it to the pool's vaults, grants the liquidity to the signer's position, mints one LP token per whole unit of liquidity to the named account, and changes no other account of the ledger.", "quantifier": "all ledgers, pools, users, accounts passed and amounts", "why_tests_cant": "twelve accounts chosen by the caller on a ledger with any number of other accounts; the frame condition quantifies over all of them", "anchors": ["programs/hmmcl-sandbox/src/instructions/deposit.rs: Deposit, handle"]}
{"id": "C115", "title": "What a withdrawal on the ledger takes, pays and leaves alone", "statement": "A withdrawal succeeds only with the right accounts; it burns the named number of LP tokens from an account of the signer, lowers the signer's position by as many units of liquidity (never below zero), pays what they are worth at the pool's price from the pool's vaults to the signer's accounts, and changes no other account of the ledger.", "quantifier": "all ledgers, pools, users, accounts passed and amounts", "why_tests_cant": "as for deposits", "anchors": ["programs/hmmcl-sandbox/src/instructions/withdraw.rs: Withdraw, handle"]}
{"id": "C116", "title": "Transactions of several instructions give no further power", "statement": "A transaction has the effect of all its instructions one after the other or no effect; every history of transactions therefore is a history of single instructions that all succeed, and what holds of those holds of histories of transactions.", "quantifier": "all ledgers and all lists of transactions of any length", "why_tests_cant": "unbounded histories of unbounded transactions", "anchors": ["programs/hmmcl-sandbox/src/lib.rs: program module"]}
{"id": "C117", "title": "f64 pool: a swap heads for the nearest tick in use", "statement": "Going left, the f64 pool looks up the largest tick in use that is not above the tick it starts from (the tick itself included); going right, the smallest tick in use above it; if there is none, it says so.", "quantifier": "all mathematical libraries, reachable pools of spacing 1 and above, and start ticks", "why_tests_cant": "the lookup rounds the start tick to the spacing with f64 divisions and trusts that all ticks in use are multiples of it and sorted, which is a fact about all histories", "anchors": ["programs/hmmcl-sandbox/src/cl_pool_float/mod.rs: get_left_limit_of_swap_within, get_right_limit_of_swap_within, glbl_tick, rp_to_possible_tick"]}
{"id": "C118", "title": "f64 pool: the HMM adjustment changes only what the trader receives", "statement": "Take two f64 pools that differ only in the HMM parameter, the HMM counters and pots and the reserve of the token paid out. Whatever the oracle prices, if the same swap goes through on both, the pools still share all the rest to the last bit - price, tick, liquidity in force, ticks, positions, fee counters, fee pots and the reserve of the token paid in - and the traders paid the same amount and fee. With the parameter at zero the adjustment is exactly zero.", "quantifier": "all mathematical libraries, pools, amounts, oracle prices and parameters (the last sentence: reachable pools)", "why_tests_cant": "it compares two executions for all pairs of oracle prices and parameters, over loops with any number of passes", "anchors": ["programs/hmmcl-sandbox/src/cl_pool_float/mod.rs: swap_within_tick_from_x, swap_within_tick_from_y, execute_swap_from_x, execute_swap_from_y, cross_tick"]}
{"id": "C119", "title": "f64 pool: the fee is the advertised fee", "statement": "The fee charged by a swap of the f64 pool is the fee rate times the whole amount taken, up to 16 rounding units (2^-53 of the amount offered) per run of the loop, and it is never negative and never more than the amount taken.", "quantifier": "all mathematical libraries, reachable pools with a rate of at least 0 and below 1, amounts from 2^-1000 to 2^1023, oracle prices, numbers of ticks crossed", "why_tests_cant": "the two ways the fee is computed round differently, and errors of all passes add up", "anchors": ["programs/hmmcl-sandbox/src/cl_pool_float/mod.rs: swap_within_tick_from_x, swap_within_tick_from_y, execute_swap_from_x, execute_swap_from_y"]}
{"id": "C120", "title": "Ledger: nobody takes out of a position more than was put into it", "statement": "For every pool on the ledger and every position of it, over any history of program and token instructions by anybody in any number of pools: what withdrawals from the position pay to the accounts of its owner plus what the rest of the position is worth is at most what deposits into it took from the accounts of the owner plus what it was worth at the start. (False as stated: each deposit into a position that has liquidity can add one token; with that term it holds.)", "quantifier": "all initial ledgers, all histories up to any point at which the pool exists, all histories after it, all positions, both tokens", "why_tests_cant": "Quantifies over all interleavings of instructions of all pools and of the token program, with adversarially passed accounts; the loss is one token per top-up and appears only after several deposits.", "anchors": ["programs/hmmcl-sandbox/src/instructions/deposit.rs: Deposit, handle", "programs/hmmcl-sandbox/src/instructions/withdraw.rs: Withdraw, handle"]}
{"id": "C121", "title": "Ledger: the vaults of a pool hold what all its positions are worth", "statement": "On every ledger reached by any history the X and Y vaults of a pool hold at least what all positions of the pool together are worth at its price. (False as stated: each deposit into a position that has liquidity can be a token short; with one token per such deposit it holds.)", "quantifier": "all initial ledgers, all histories of instructions of any number of pools and of the token program, all pools", "why_tests_cant": "A solvency invariant over unbounded histories and positions of all users; tests look at one deposit and one withdrawal.", "anchors": ["programs/hmmcl-sandbox/src/instructions/deposit.rs: Deposit, handle", "programs/hmmcl-sandbox/src/instructions/withdraw.rs: Withdraw, handle"]}
{"id": "C122", "title": "f64 pool: single price steps are accurate and go the right way", "statement": "The root price the f64 pool computes for an amount put into a range is the one the curve gives, to 4 rounding units (2^-53); adding X never raises the computed price and adding Y never lowers it. (False for X: for amounts below about 2^-51 of the liquidity over the price the computed price can rise by a unit, and the swap then panics; above that it holds.)", "quantifier": "all f64 liquidities, prices from 2^-400 to 2^400 and amounts (up to 2^400 per unit of liquidity); the panic: all oracle prices and run lengths", "why_tests_cant": "Holds or fails in the last bit of an f64, depending on the price; the tests use a few round amounts.", "anchors": ["programs/hmmcl-sandbox/src/cl_pool_float/cl_math.rs: rp_new_from_l_dx, rp_new_from_l_dy", "programs/hmmcl-sandbox/src/cl_pool_float/mod.rs: swap_within_tick_from_x"]}
{"id": "C123", "title": "f64 pool: pays by the curve; trading back and forth gains nothing", "statement": "For an amount put in, the f64 pool pays out no more of the other token than the constant-product curve frees, so that a trader who swaps X for Y and all the Y back for X does not end up with more X. (False: payments are within 8 and 9 rounding units of the reserves L*p and L/p of what the curve gives, but for amounts of that order a trader can double its X, with a 0.3% fee each way, and leave the price exactly where it was.)", "quantifier": "all f64 liquidities, prices from 2^-400 to 2^400 and amounts (up to 2^400 per unit of liquidity)", "why_tests_cant": "The gain comes from the last bits of the f64 results; the tests use a few round amounts.", "anchors": ["programs/hmmcl-sandbox/src/cl_pool_float/cl_math.rs: rp_new_from_l_dx, rp_new_from_l_dy, dx_from_l_drp, dy_from_l_drp", "programs/hmmcl-sandbox/src/cl_pool_float/mod.rs: swap_within_tick_from_x, swap_within_tick_from_y"]}
{"id": "C124", "title": "f64 pool: a swap that stays in the current range is filled", "statement": "With no HMM adjustment and a fee of at most 40%, a swap whose end price on the curve stays clear (by 16 rounding units) of the next tick in use, and whose payment is in the reserve, completes in one pass whatever the oracle says: the whole amount is taken and the payment is at most what the curve frees plus 16 rounding units of the reserve. (False for X amounts below about 8 rounding units of the liquidity over the price, where the swap can panic.)", "quantifier": "all pools, math libraries, oracle prices, run lengths >= 2 and amounts; numbers from 2^-400 to 2^400", "why_tests_cant": "Any of about ten run-time assertions in a swap could fail in the last bit for some amount; the tests try a few round ones.", "anchors": ["programs/hmmcl-sandbox/src/cl_pool_float/mod.rs: swap_within_tick_from_x, swap_within_tick_from_y, execute_swap_from_x, execute_swap_from_y", "programs/hmmcl-sandbox/src/cl_pool_float/cl_math.rs: rp_new_from_l_dx, rp_new_from_l_dy, dx_from_l_drp, dy_from_l_drp"]}
{"id": "C125", "title": "f64 pool: with C = 1 the pool pays by the logarithmic curve", "statement": "With C = 1, while the price moves from a to b on its way to the oracle price o, the quote for X is (L / o) ln(b / a) and the quote for Y is L o ln(a / b), up to a few rounding units, and a step of a swap sends that much less the pool's allowance of 10^-12.", "quantifier": "all liquidities, prices and oracle prices of ordinary size, all pools with C = 1, every library whose ln is right within one unit in the last place", "why_tests_cant": "quantifies over all prices, liquidities and over the platform logarithm; the error bound combines four roundings", "anchors": ["programs/hmmcl-sandbox/src/cl_pool_float/cl_math.rs: PoolMath::dx_from_l_drp_hmm", "programs/hmmcl-sandbox/src/cl_pool_float/cl_math.rs: PoolMath::dy_from_l_drp_hmm", "programs/hmmcl-sandbox/src/cl_pool_float/mod.rs: Pool::swap_within_tick_from_Y"]}
{"id": "C126", "title": "f64 pool: with C other than 1 the pool quotes by the power curve", "statement": "For C from 1/2 to 2 and not 1, the quotes of the pool for a move of the price from a to b on its way to the oracle price o are those of the curve on which X changes by L / o^C * r^(C - 2) and Y by L * o^C * r^(-C) per unit of root price r, up to 10 rounding units of what the two ends count for, with the right sign in both directions; a step of a swap that ends before the oracle price sends that much less the pool's allowance of 10^-12, and one that goes past it sends the curve's amount up to the oracle price and the constant product's after it.", "quantifier": "all C from 1/2 to 2 other than 1, all liquidities, prices and oracle prices of ordinary size, every library whose powf is right within one unit in the last place", "why_tests_cant": "quantifies over all prices, liquidities, C and over the platform powf; the error grows as C comes near 1 and the bound says how fast", "anchors": ["programs/hmmcl-sandbox/src/cl_pool_float/cl_math.rs: PoolMath::dx_from_l_drp_hmm", "programs/hmmcl-sandbox/src/cl_pool_float/cl_math.rs: PoolMath::dy_from_l_drp_hmm", "programs/hmmcl-sandbox/src/cl_pool_float/mod.rs: Pool::swap_within_tick_from_X", "programs/hmmcl-sandbox/src/cl_pool_float/mod.rs: Pool::swap_within_tick_from_Y"]}
{"id": "C127", "title": "f64 pool: a swap is not refused because its adjustment is small", "statement": "A swap that the pool has the liquidity for, and that goes through when no HMM adjustment is made, also goes through when one is made. On the curves the adjustment is always positive below (above) the oracle price, so the check that it is not negative should never stop a swap.", "quantifier": "all reachable pools with C from 1/2 to 2 other than 1, all amounts and oracle prices, every library with accurate powers", "why_tests_cant": "the swaps concerned end close to the oracle price, where the difference of two rounded quotes decides; amounts that are refused lie between amounts that are accepted", "anchors": ["programs/hmmcl-sandbox/src/cl_pool_float/mod.rs: Pool::swap_within_tick_from_X", "programs/hmmcl-sandbox/src/cl_pool_float/mod.rs: Pool::swap_within_tick_from_Y", "programs/hmmcl-sandbox/src/cl_pool_float/cl_math.rs: PoolMath::dx_from_l_drp_hmm", "programs/hmmcl-sandbox/src/cl_pool_float/cl_math.rs: PoolMath::dx_from_l_drp"]}
