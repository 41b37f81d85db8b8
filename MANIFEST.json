{
 "claims": [
  {
   "property": "C01",
   "status": "proved",
   "theorems": [
    "C01_add_exact",
    "C01_sub_exact"
   ],
   "note": ""
  },
  {
   "property": "C02",
   "status": "proved",
   "theorems": [
    "C02_mul_truncates",
    "C02_mul_up_rounds_away",
    "C02_mul_u128_exact"
   ],
   "note": ""
  },
  {
   "property": "C03",
   "status": "proved",
   "theorems": [
    "C03_div_truncates",
    "C03_div_up_rounds_away",
    "C03_div_to_scale_truncates",
    "C03_zero_divisor_panics"
   ],
   "note": ""
  },
  {
   "property": "C04",
   "status": "partial",
   "theorems": [
    "C04_to_scale",
    "C04_to_scale_up_partial",
    "C04_to_scale_up_sign_refuted"
   ],
   "note": "to_scale fully proved; to_scale_up drops the sign of negative inputs (finding), so 'both keep the sign' is false for it."
  },
  {
   "property": "C05",
   "status": "partial",
   "theorems": [
    "C05_different_scale_rejected",
    "C05_comparisons_partial",
    "C05_comparisons_refuted"
   ],
   "note": "Proved for all decimals except negative zero; negative zero (producible by mul) compares below zero: finding."
  },
  {
   "property": "C06",
   "status": "partial",
   "theorems": [
    "C06_sqrt",
    "C06_negative_radicand_refuted"
   ],
   "note": "The stated bound is proved for all decimals including termination; additionally a negative radicand is not rejected (finding)."
  },
  {
   "property": "C07",
   "status": "partial",
   "theorems": [
    "C07_pow_partial",
    "C07_pow_zero",
    "C07_pow_one",
    "C07_pow_at_most_one_total",
    "C07_negative_base_sign_refuted"
   ],
   "note": "Everything but the sign for negative bases, which is inverted (finding)."
  },
  {
   "property": "C08",
   "status": "proved",
   "theorems": [
    "C08_round_trip",
    "C08_text_denotes_number",
    "C08_parse_plain"
   ],
   "note": ""
  },
  {
   "property": "C09",
   "status": "partial",
   "theorems": [
    "C09_nonpositive_exponent_partial",
    "C09_positive_exponent_partial",
    "C09_fraction_lost_refuted",
    "C09_exponent_wraps_refuted"
   ],
   "note": "Parsing with an exponent is right for zero/negative exponents in range and for positive exponents without fractional digits; a fraction with a positive exponent is dropped and exponents wrap modulo 256 (findings)."
  },
  {
   "property": "C10",
   "status": "partial",
   "theorems": [
    "C10_abs_floor",
    "C10_abs_up_ceiling",
    "C10_raw",
    "C10_into_i32_partial",
    "C10_into_i32_refuted"
   ],
   "note": "All but Into<i32>, which wraps for magnitudes >= 2^31 (finding)."
  },
  {
   "property": "C11",
   "status": "proved",
   "theorems": [
    "C11_defined_below_2_19",
    "C11_panics_from_2_19",
    "C11_strictly_increasing"
   ],
   "note": ""
  },
  {
   "property": "C12",
   "status": "proved",
   "theorems": [
    "C12_search_terminates_and_brackets",
    "C12_search_returns",
    "C12_search_is_short",
    "C12_search_brackets_powers"
   ],
   "note": ""
  },
  {
   "property": "C13",
   "status": "partial",
   "theorems": [
    "C13_off_by_one_partial",
    "C13_round_trip_refuted"
   ],
   "note": "Identity is false (tick 3 looks up as 2: finding); proved that the error is at most one tick."
  },
  {
   "property": "C14",
   "status": "proved",
   "theorems": [
    "C14_align_down",
    "C14_align_up",
    "C14_zero_spacing_panics"
   ],
   "note": "Rounding up panics only when t+s-1 does not fit u128."
  },
  {
   "property": "C15",
   "status": "partial",
   "theorems": [
    "C15_y_never_more_than_offered",
    "C15_x_partial",
    "C15_x_refuted"
   ],
   "note": "y side proved; x side can exceed the offer by a relative 10^-12 (finding: the deposit then panics), bound proved."
  },
  {
   "property": "C16",
   "status": "proved",
   "theorems": [
    "C16_monotone",
    "C16_superadditive"
   ],
   "note": ""
  },
  {
   "property": "C17",
   "status": "proved",
   "theorems": [
    "C17_dx_never_raises_price",
    "C17_dy_never_lowers_price"
   ],
   "note": ""
  },
  {
   "property": "C18",
   "status": "proved",
   "theorems": [
    "C18_swap_x_accounting"
   ],
   "note": ""
  },
  {
   "property": "C19",
   "status": "proved",
   "theorems": [
    "C19_swap_y_accounting"
   ],
   "note": ""
  },
  {
   "property": "C20",
   "status": "proved",
   "theorems": [
    "C20_swap_x_bounds",
    "C20_swap_y_bounds",
    "reachable_pool_wf"
   ],
   "note": ""
  },
  {
   "property": "C21",
   "status": "proved",
   "theorems": [
    "C21_swap_x_price_path",
    "C21_swap_y_price_path"
   ],
   "note": ""
  },
  {
   "property": "C22",
   "status": "proved",
   "theorems": [
    "C22_swap_x_terminates",
    "C22_swap_y_terminates",
    "C22_budget_irrelevant_x",
    "C22_budget_irrelevant_y"
   ],
   "note": ""
  },
  {
   "property": "C23",
   "status": "proved",
   "theorems": [
    "C23_tick_sums"
   ],
   "note": ""
  },
  {
   "property": "C24",
   "status": "proved",
   "theorems": [
    "C24_active_ticks"
   ],
   "note": ""
  },
  {
   "property": "C25",
   "status": "partial",
   "theorems": [
    "C25_liquidity_in_range_partial",
    "C25_liquidity_in_range_refuted"
   ],
   "note": "False when a swap ends on or within one tick of an active tick (finding, witness); proved for all histories whose completely filled swaps end clear of active ticks."
  },
  {
   "property": "C26",
   "status": "proved",
   "theorems": [
    "C26_swap_x_records",
    "C26_swap_y_records"
   ],
   "note": ""
  },
  {
   "property": "C27",
   "status": "proved",
   "theorems": [
    "C27_never_negative",
    "C27_growth_monotone"
   ],
   "note": ""
  },
  {
   "property": "C28",
   "status": "proved",
   "theorems": [
    "C28_swap_x_hmm",
    "C28_swap_y_hmm",
    "C28_no_adjustment_x",
    "C28_no_adjustment_y"
   ],
   "note": ""
  },
  {
   "property": "C29",
   "status": "proved",
   "theorems": [
    "C29_deposit_exact",
    "C29_withdraw_exact",
    "C29_empty_position_refuted"
   ],
   "note": "Accounting as claimed; side finding: withdrawing zero from a non-existing position creates an empty position."
  },
  {
   "property": "C30",
   "status": "proved",
   "theorems": [
    "C30_deposit_frame",
    "C30_withdraw_frame"
   ],
   "note": ""
  },
  {
   "property": "C31",
   "status": "partial",
   "theorems": [
    "C31_new_position_fees_partial",
    "C31_no_growth_partial",
    "C31_top_up_partial",
    "C31_new_position_fees_refuted"
   ],
   "note": "False: new positions start with zero fee counters and are paid all past growth (finding, witness). Proved: the exact amount paid, zero for pools without fees and for top-ups."
  },
  {
   "property": "C32",
   "status": "partial",
   "theorems": [
    "C32_no_swaps_partial",
    "C32_withdraw_completes_partial",
    "C32_withdraw_steady_partial",
    "C32_withdraw_after_swap_refuted",
    "C32_withdraw_after_drain_refuted",
    "C32_withdraw_dust_refuted"
   ],
   "note": "False in three ways (findings, witnesses): rounding of X-in swaps, drained fee pots, dust deposits.  Proved: holds unconditionally in histories without swaps and without deposits into open positions; in any reachable pool it holds if growth inside the range has not gone back, the fee pots and reserves hold what is due, and numbers fit in 128 bits; in the histories of C61 reserves and 128 bits are the only obstacles."
  },
  {
   "property": "C33",
   "status": "proved",
   "theorems": [
    "C33_withdraw_le_deposit",
    "C33_round_trip"
   ],
   "note": ""
  },
  {
   "property": "C34",
   "status": "partial",
   "theorems": [
    "C34_left_lookup_partial",
    "C34_right_lookup_partial",
    "C34_off_grid_stuck",
    "C34_both_directions_refuted"
   ],
   "note": "False for spacing > 1 (finding, witness): off the spacing grid every Y-in swap panics; proved that the lookups succeed in all other cases (always for spacing 1)."
  },
  {
   "property": "C35",
   "status": "proved",
   "theorems": [
    "C35_is_active_reads_set",
    "C35_activate_adds_one",
    "C35_unset_removes_one",
    "C35_fresh_empty",
    "C35_out_of_range_panics"
   ],
   "note": ""
  },
  {
   "property": "C36",
   "status": "proved",
   "theorems": [
    "C36_next_below",
    "C36_next_above",
    "C36_other_direction_refuted"
   ],
   "note": "Directions 0 and 1 as claimed; other direction values behave like 'up' but skip the rest of the current word (side finding)."
  },
  {
   "property": "C37",
   "status": "proved",
   "theorems": [
    "C37_price_constant",
    "C37_price_of_tick",
    "C37_no_fees"
   ],
   "note": "Exact amounts without any fee offset: C39_deposit, C45_withdraw."
  },
  {
   "property": "C38",
   "status": "partial",
   "theorems": [
    "C38_global_liquidity",
    "C38_tick_sums_partial",
    "C38_current_tick_zero",
    "C38_refuted"
   ],
   "note": "Pool liquidity: full. Tick accounts: all but the pool's current tick, whose account is overwritten with a stale copy and always reads zero (finding, witness)."
  },
  {
   "property": "C39",
   "status": "proved",
   "theorems": [
    "C39_deposit"
   ],
   "note": ""
  },
  {
   "property": "C40",
   "status": "proved",
   "theorems": [
    "C40_conservation"
   ],
   "note": ""
  },
  {
   "property": "C41",
   "status": "proved",
   "theorems": [
    "C41_backed"
   ],
   "note": ""
  },
  {
   "property": "C42",
   "status": "partial",
   "theorems": [
    "C42_position_x_partial",
    "C42_position_y_partial",
    "C42_vaults_partial",
    "C42_refuted"
   ],
   "note": "False (finding, witness): repeated dust deposits debit nothing and can be withdrawn together for 2 X and 1 Y of another user. Proved: gain of at most one token per top-up of a position; none without top-ups."
  },
  {
   "property": "C43",
   "status": "partial",
   "theorems": [
    "C43_after_deposit_partial",
    "C43_any_time_partial",
    "C43_locked_forever",
    "C43_refuted"
   ],
   "note": "Proved for positions without a bound at the pool's tick. Positions with one are locked forever (finding, universal theorem and witness)."
  },
  {
   "property": "C44",
   "status": "partial",
   "theorems": [
    "C44_only_mock_bits_partial",
    "C44_withdraw_clears",
    "C44_refuted"
   ],
   "note": "False (finding): the code uses the constants 0 and 40000 instead of the ticks, so only these bits are ever set, and each withdrawal clears them."
  },
  {
   "property": "C45",
   "status": "proved",
   "theorems": [
    "C45_withdraw"
   ],
   "note": ""
  },
  {
   "property": "C46",
   "status": "proved",
   "theorems": [
    "C46_tick_price_accuracy"
   ],
   "note": ""
  },
  {
   "property": "C47",
   "status": "proved",
   "theorems": [
    "C47_tick_growth_bounded"
   ],
   "note": ""
  },
  {
   "property": "C48",
   "status": "partial",
   "theorems": [
    "C48_deposit_new_partial",
    "C48_deposit_completes_partial",
    "C48_deposit_refused_refuted"
   ],
   "note": "False (finding, witness): growth inside a range can come out negative and the deposit panics.  Proved: for a new position this is the only way (iff, given a quote and room in 128 bits); for an open position a sufficient condition."
  },
  {
   "property": "C49",
   "status": "partial",
   "theorems": [
    "C49_short_swap_x_partial",
    "C49_short_swap_y_partial",
    "C49_partial_fill_refuted"
   ],
   "note": "A swap filled in part has used up its side of the pool, and further swaps that way move nothing. That it completes is false (finding, witness): a one-unit rounding shortage makes an oversized swap panic."
  },
  {
   "property": "C50",
   "status": "proved",
   "theorems": [
    "C50_price_near_tick",
    "C50_tick_bounded"
   ],
   "note": ""
  },
  {
   "property": "C51",
   "status": "partial",
   "theorems": [
    "C51_gain_bounded_partial",
    "C51_reserves_cover_partial",
    "C51_dust_deposits_refuted"
   ],
   "note": "False by a few units in the last place (finding, witness).  Proved for every history without swaps and every set of users: the gain is at most 2 (X) and 1 (Y) units of 10^-12 per deposit into an already open position, so none without such deposits; likewise the reserves cover all claims up to that."
  },
  {
   "property": "C52",
   "status": "proved",
   "theorems": [
    "C52_bystanders"
   ],
   "note": ""
  },
  {
   "property": "C53",
   "status": "partial",
   "theorems": [
    "C53_swap_y_price",
    "C53_swap_x_price_partial",
    "C53_swap_x_price_refuted"
   ],
   "note": "Y for X: proved exactly, for pools whose tick and price agree or that have liquidity in range. X for Y: false for dust (finding, witness: 10^-12 X, all of it fee, buys 8330334 * 10^-12 Y); proved up to an allowance of about 10^-12 times ticks, liquidity and amount."
  },
  {
   "property": "C54",
   "status": "partial",
   "theorems": [
    "C54_round_trips_partial",
    "C54_no_free_trades_refuted"
   ],
   "note": "False (finding, witness: two dust swaps and selling the proceeds back leave X to spare). Proved for swaps that return to the same price, from states whose tick and liquidity agree with the price, up to the accumulated rounding allowances."
  },
  {
   "property": "C55",
   "status": "partial",
   "theorems": [
    "C55_reserves_cover_partial",
    "C55_reserves_cover_refuted",
    "C55_deposit_pays_for_itself",
    "C55_withdrawal_takes_at_most_its_worth",
    "C55_swap_x_keeps_cover",
    "C55_swap_y_keeps_cover",
    "C55_clear_is_settled"
   ],
   "note": "False (finding, witness: after the tick lands on the wrong side of an active tick, one swap leaves the pool 398 X short of 1746). Proved for histories in which every swap starts with tick and liquidity agreeing with the price, up to accumulated rounding allowances; withdrawals need no allowance."
  },
  {
   "property": "C56",
   "status": "proved",
   "theorems": [
    "C56_swap_x_fair",
    "C56_swap_y_fair"
   ],
   "note": "For pools whose recorded tick and liquidity agree with the price (C25, C55 say when they do not)."
  },
  {
   "property": "C57",
   "status": "proved",
   "theorems": [
    "C57_swap_x_fee",
    "C57_swap_y_fee"
   ],
   "note": ""
  },
  {
   "property": "C58",
   "status": "proved",
   "theorems": [
    "C58_deposit_fair",
    "C58_withdraw_fair"
   ],
   "note": ""
  },
  {
   "property": "C59",
   "status": "proved",
   "theorems": [
    "C59_deposit_uses_offer"
   ],
   "note": ""
  },
  {
   "property": "C60",
   "status": "proved",
   "theorems": [
    "C60_swap_x_credits",
    "C60_swap_y_credits"
   ],
   "note": "For pools whose recorded liquidity is right and swaps that do not end within a tick of an active tick (C25 says what goes wrong otherwise)."
  },
  {
   "property": "C61",
   "status": "partial",
   "theorems": [
    "C61_pots_backed_partial",
    "C61_pots_backed_refuted"
   ],
   "note": "False (finding, witness: opening a position where fees were collected before, see C31, makes more due than the pot holds). Proved for histories in which positions are opened only where no growth is recorded and no completely filled swap ends within a tick of an active tick."
  },
  {
   "property": "C62",
   "status": "proved",
   "theorems": [
    "C62_pow_below_one",
    "C62_pow_above_one",
    "C62_pow_monotone",
    "C62_pow_completes",
    "C62_pow_needs_room"
   ],
   "note": "Negative bases are wrong (C07)."
  },
  {
   "property": "C63",
   "status": "partial",
   "theorems": [
    "C63_pow_decimal_partial",
    "C63_exponents_computed",
    "C63_other_exponents",
    "C63_other_scale_panics",
    "C63_pow_decimal_refuted"
   ],
   "note": "False at scale 1 (finding: 0.2 is taken for 1/4). Proved for scales of at least 2."
  },
  {
   "property": "C64",
   "status": "partial",
   "theorems": [
    "C64_below_one_x",
    "C64_below_one_y",
    "C64_unhandled_x",
    "C64_unhandled_y",
    "C64_hmm_parameter_refuted",
    "C64_log_sign_refuted",
    "C64_close_oracle_refuted"
   ],
   "note": "False (findings): 0 < C < 1, C in (1,2) other than 5/4 and 3/2, and C > 1 not given at scale 12 stop every swap towards the oracle price (proved for all pools); C = 1 stops X-in swaps (sign error, witness); C = 2 stops swaps when the oracle price is close (rounding, witness)."
  },
  {
   "property": "C65",
   "status": "partial",
   "theorems": [
    "C65_ln_accurate_partial",
    "C65_ln_scaled_partial",
    "C65_ln_large_refuted",
    "C65_ln_zero",
    "C65_ln_small_refuted",
    "C65_ln_inexact_refuted",
    "C65_ln_bit_length_refuted",
    "C65_oracle_exists"
   ],
   "note": "Proved for 1/64 <= x < 2^128/10^24 when the f64 bit length is right. False outside (findings): from 2^128/10^24 up and below 2^-19 nothing is returned, small values get a wrong logarithm, and a bit length rounded up just below a power of two makes the result wrong by 0.09."
  },
  {
   "property": "C66",
   "status": "partial",
   "theorems": [
    "C66_round_trip_partial",
    "C66_tick_two_refuted",
    "C66_estimate_partial",
    "C66_direction_refuted",
    "C66_below_one_refuted",
    "C66_floor_refuted"
   ],
   "note": "Round trip proved for all ticks below 2^19 except 2, which is mapped to 1 (finding). The direction flag has no effect, prices below 1 lose the sign of their tick, and a price just below a tick can be given that tick (findings)."
  },
  {
   "property": "C67",
   "status": "partial",
   "theorems": [
    "C67_log_x_partial",
    "C67_log_y_negated",
    "C67_log_y_refuted",
    "C67_log_step_refuted"
   ],
   "note": "X amount proved. The Y amount is always the negative of the right one (finding), so steps that sell X towards the oracle price do not complete."
  },
  {
   "property": "C68",
   "status": "proved",
   "theorems": [
    "C68_curve_x",
    "C68_curve_y"
   ],
   "note": "Against the real power function of the standard library."
  },
  {
   "property": "C69",
   "status": "proved",
   "theorems": [
    "C69_x_price_floor",
    "C69_y_price_cap"
   ],
   "note": "For C = 0, 5/4, 3/2, 2, all other C either cannot be traded with an oracle price or are covered by C67."
  },
  {
   "property": "C70",
   "status": "partial",
   "theorems": [
    "C70_oracle_stops_x_refuted",
    "C70_oracle_stops_y_refuted",
    "C70_x_unaffected_partial",
    "C70_y_unaffected_partial"
   ],
   "note": "First half false (finding): an oracle price within 10^-6 of the pool's price on the better side makes the adjustment negative by rounding and the assertion panics. Second half proved."
  },
  {
   "property": "C71",
   "status": "proved",
   "theorems": [
    "C71_x_prices",
    "C71_y_prices"
   ],
   "note": ""
  },
  {
   "property": "C72",
   "status": "partial",
   "theorems": [
    "C72_starting_price_refuted",
    "C72_low_prices_start_at_one",
    "C72_starting_price_partial"
   ],
   "note": "False below 1 (finding): every price below 1 asked for is silently replaced by 1. Proved for prices of 1 and more."
  },
  {
   "property": "C73",
   "status": "partial",
   "theorems": [
    "C73_parameters_partial",
    "C73_whole_input_x",
    "C73_whole_input_y",
    "C73_fee_of_one_refuted",
    "C73_no_swap_x",
    "C73_no_swap_y",
    "C73_fee_scale_refuted"
   ],
   "note": "False (finding): fee rates of 1 and more are accepted and make every completed swap take its whole input as fee; fee rates not at scale 12 are accepted and make every swap step panic. What creation does enforce is proved."
  },
  {
   "property": "C74",
   "status": "partial",
   "theorems": [
    "C74_x_more",
    "C74_x_more_paid",
    "C74_y_more_partial",
    "C74_y_more_paid_partial",
    "C74_formula_refuted"
   ],
   "note": "Selling X: proved. Selling Y: proved up to a relative 10^-12 and 2*10^-12; the formulas used there are shown not to be exactly monotone."
  },
  {
   "property": "C75",
   "status": "proved",
   "theorems": [
    "C75_x_split",
    "C75_y_split"
   ],
   "note": "Stated with explicit rounding allowances; each swap starts with tick and liquidity in agreement with the price (C25)."
  },
  {
   "property": "C76",
   "status": "partial",
   "theorems": [
    "C76_lower_from_y",
    "C76_upper_from_x_partial",
    "C76_upper_from_x_refuted",
    "C76_lower_from_xy",
    "C76_upper_from_xy"
   ],
   "note": "Proved with explicit allowances; the claim that an impossible request panics is refuted for rpb_from_l_rp_x."
  },
  {
   "property": "C77",
   "status": "partial",
   "theorems": [
    "C77_x_partial",
    "C77_y_partial",
    "C77_x_stuck",
    "C77_y_stuck",
    "C77_refuted"
   ],
   "note": "Refuted: small amounts never complete (universal theorems), and there are windows of larger amounts that abort. Partial: inside one range, above an explicit minimum and with numbers that fit, every swap completes in full. Missing: several ranges, oracle price with C > 0."
  },
  {
   "property": "C78",
   "status": "partial",
   "theorems": [
    "C77_x_partial",
    "C77_y_partial",
    "C78_x_stuck",
    "C78_y_stuck",
    "C78_refuted"
   ],
   "note": "For ranges away from tick 0 see C77. Refuted: nothing can be traded inside a range that starts at tick 0 (universal theorems and a witness)."
  },
  {
   "property": "C79",
   "status": "partial",
   "theorems": [
    "C79_f64_reserves_partial",
    "C79_f64_swap_partial",
    "C79_f64_reserves_nan_stuck",
    "C79_f64_reserves_numbers_refuted"
   ],
   "note": "Proved for histories of up to 2^90 calls with amounts up to 2^200, withdrawn liquidity up to 2^600, prices from 2^-100 to 2^100, ranges whose lower price is below the upper one and swaps of up to 2^100 passes. The full claim is false: a deposit between two equal ticks makes both reserves NaN."
  },
  {
   "property": "C80",
   "status": "partial",
   "theorems": [
    "C80_f64_tick_liquidity_partial",
    "C80_f64_tick_liquidity_refuted"
   ],
   "note": "Proved exactly for histories with whole amounts and total liquidity below 2^52; false for fractional withdrawals."
  },
  {
   "property": "C81",
   "status": "partial",
   "theorems": [
    "C81_f64_round_trip_partial",
    "C81_f64_round_trip_refuted"
   ],
   "note": "Proved before the first swap; false afterwards (a new position is credited with earlier fees)."
  },
  {
   "property": "C82",
   "status": "partial",
   "theorems": [
    "C82_f64_amount_in_partial",
    "C82_f64_amount_in_refuted"
   ],
   "note": "Proved for amounts up to 2^1023 with the stated relative allowance; shown that without the allowance it is false."
  },
  {
   "property": "C83",
   "status": "proved",
   "theorems": [
    "C83_f64_frame"
   ],
   "note": ""
  },
  {
   "property": "C84",
   "status": "partial",
   "theorems": [
    "C84_f64_withdraw_partial",
    "C84_f64_withdraw_after_swaps_partial",
    "C84_f64_withdraw_own_refuted",
    "C84_f64_position_frozen_refuted"
   ],
   "note": "False in two ways: other providers' fractional withdrawals; rounding of the fee growth. Proved for whole amounts before the first swap; afterwards the fee growth and C93 are the only obstacles."
  },
  {
   "property": "C85",
   "status": "partial",
   "theorems": [
    "C85_f64_deposit_partial",
    "C85_f64_first_deposits_partial",
    "C85_f64_not_negative",
    "C85_f64_deposit_stuck",
    "C85_f64_deposit_refuted",
    "C85_f64_quote_refuted"
   ],
   "note": "Proved of every reachable pool: a deposit is refused only because of the growths of the fees inside the range or because the pool's own quote exceeds what was offered (before the first swap: the quote only). Both happen: an exact condition under which no deposit of any size succeeds, met by a reachable pool; and amounts the quote refuses in an unused pool for the rounding alone (100000000000004 of Y, while 100000000000005 are accepted)."
  },
  {
   "property": "C86",
   "status": "partial",
   "theorems": [
    "C86_f64_y_swap_stuck",
    "C86_f64_y_swap_refuted",
    "C124_f64_fill_y",
    "C124_f64_fill_x_partial"
   ],
   "note": "False: no Y swap succeeds while the tick is not a multiple of the spacing. What holds: with the conditions of C124 (liquidity in range, no HMM adjustment, fee at most 40%, plain numbers, a covered reserve, a price that stays in the range), Y swaps whose search for the next tick succeeds are filled, and so are X swaps above the dust threshold of C122."
  },
  {
   "property": "C87",
   "status": "partial",
   "theorems": [
    "C87_f64_c_one_stuck",
    "C87_f64_c_one_refuted",
    "C125_f64_log_quote_y_sign"
   ],
   "note": "False: a step above the oracle price never sends anything; the swap panics."
  },
  {
   "property": "C88",
   "status": "proved",
   "theorems": [
    "C88_f64_tick_grid"
   ],
   "note": ""
  },
  {
   "property": "C89",
   "status": "partial",
   "theorems": [
    "C89_bit_length_partial",
    "C89_bit_length_ticks",
    "C89_ln_partial",
    "C89_tick_round_trip",
    "C89_in_range_partial",
    "C89_bit_length_refuted",
    "C89_ln_below_refuted",
    "C89_ln_gnu_refuted"
   ],
   "note": "Proved for every accurate library and all numbers not within a factor 1 +- 10^-12 of a power of two (all tick prices among them); false next to powers of two: from 2^14 on for every library."
  },
  {
   "property": "C90",
   "status": "partial",
   "theorems": [
    "C90_magnitude",
    "C90_sign_refuted"
   ],
   "note": "The magnitude is right; the sign of negative numbers is dropped."
  },
  {
   "property": "C91",
   "status": "partial",
   "theorems": [
    "C91_round_trip_partial",
    "C91_aligned_partial",
    "C91_round_trip_refuted"
   ],
   "note": "The tick or the one below (aligned: one spacing below); an accurate library with which tick 2 gives tick 1."
  },
  {
   "property": "C92",
   "status": "proved",
   "theorems": [
    "C92_f64_flow",
    "C92_f64_deposit",
    "C92_f64_flow_exact_refuted"
   ],
   "note": "Without the rounding allowance it is false: the pool can record less than it was paid."
  },
  {
   "property": "C93",
   "status": "partial",
   "theorems": [
    "C93_f64_in_force_partial",
    "C93_f64_in_force_swaps_partial",
    "C93_f64_in_force_refuted"
   ],
   "note": "Deposits and withdrawals keep it; swaps keep it if every pass crosses the tick it heads for or ends on a tick before it, in the direction of the swap; a Y swap that ends exactly at the upper end of a range leaves its liquidity in force, also after the provider has withdrawn."
  },
  {
   "property": "C94",
   "status": "partial",
   "theorems": [
    "C94_f64_reserves_partial",
    "C94_f64_reserves_refuted"
   ],
   "note": "Swaps keep the reserves non-negative (c = 0; otherwise up to 5 rounding units); after the history of C93 a withdrawal takes more than the pool has."
  },
  {
   "property": "C95",
   "status": "proved",
   "theorems": [
    "C95_two_withdrawals"
   ],
   "note": ""
  },
  {
   "property": "C96",
   "status": "proved",
   "theorems": [
    "C96_deposits_commute"
   ],
   "note": ""
  },
  {
   "property": "C97",
   "status": "proved",
   "theorems": [
    "C97_withdrawals_commute"
   ],
   "note": ""
  },
  {
   "property": "C98",
   "status": "partial",
   "theorems": [
    "C98_deposit_withdraw_partial",
    "C98_deposit_withdraw_refuted"
   ],
   "note": "Holds if the depositor's position already holds liquidity; a new position in a range whose last provider leaves is later paid old fees or not, depending on the order."
  },
  {
   "property": "C99",
   "status": "proved",
   "theorems": [
    "C99_addresses",
    "C99_seeds_accepted"
   ],
   "note": ""
  },
  {
   "property": "C100",
   "status": "proved",
   "theorems": [
    "C100_stored"
   ],
   "note": ""
  },
  {
   "property": "C101",
   "status": "partial",
   "theorems": [
    "C101_x_deposit_refused",
    "C101_x_deposit_refused_chain",
    "C101_x_deposit_refuted",
    "C101_x_deposit_quoted_partial"
   ],
   "note": "False: when X decides, every offer above a threshold (a few tens of tokens at prices near 1) is refused, in the decimal pool and on chain. Below a lower threshold the amounts fit the offer."
  },
  {
   "property": "C102",
   "status": "proved",
   "theorems": [
    "C102_same_terms",
    "C102_not_blocked"
   ],
   "note": "Token supplies of X and Y are assumed to fit u64, as SPL token mints guarantee."
  },
  {
   "property": "C103",
   "status": "partial",
   "theorems": [
    "C103_any_order_partial",
    "C103_bitmap_order_refuted"
   ],
   "note": "Holds of every account but the bitmap: balances, supply, pool, positions and ticks (net liquidity as a signed number). The bitmap depends on the order, because withdrawals clear bits that other positions still need (cf. C44)."
  },
  {
   "property": "C104",
   "status": "proved",
   "theorems": [
    "C104_one_pool"
   ],
   "note": "Under the conditions in the statement; C107 and C109 show what goes wrong without them."
  },
  {
   "property": "C105",
   "status": "proved",
   "theorems": [
    "C105_keys",
    "C105_accounts",
    "C105_vaults",
    "C105_supply"
   ],
   "note": ""
  },
  {
   "property": "C106",
   "status": "proved",
   "theorems": [
    "C106_tokens",
    "C106_mints",
    "C106_positions"
   ],
   "note": "Token delegates are not modelled."
  },
  {
   "property": "C107",
   "status": "partial",
   "theorems": [
    "C107_backed_partial",
    "C107_backed_refuted"
   ],
   "note": "False if tokens of the LP mint exist before its pool is created, which the program does not check; holds otherwise, for pools whose tokens are not their own LP token."
  },
  {
   "property": "C108",
   "status": "proved",
   "theorems": [
    "C108_open",
    "C108_once",
    "C108_forever"
   ],
   "note": ""
  },
  {
   "property": "C109",
   "status": "partial",
   "theorems": [
    "C109_paid_partial",
    "C109_paid_refuted"
   ],
   "note": "False for a pool one of whose tokens is its own LP token: the LP tokens minted by the deposit pay for it. Proved for all other pools."
  },
  {
   "property": "C110",
   "status": "proved",
   "theorems": [
    "C110_x_ends",
    "C110_y_ends"
   ],
   "note": "Spacing is any u32, including 0."
  },
  {
   "property": "C111",
   "status": "proved",
   "theorems": [
    "C111_can_do"
   ],
   "note": "Converse of C104. Pools whose LP token is not X or Y and whose LP supply was 0 at creation, as in C104. One token account of the user has to hold what is taken, because the single-pool model adds up a user's accounts."
  },
  {
   "property": "C112",
   "status": "proved",
   "theorems": [
    "C112_not_blocked"
   ],
   "note": "LP tokens go to an account of the user. The capacity of liquidity and LP supply is needed: others can use it up."
  },
  {
   "property": "C113",
   "status": "partial",
   "theorems": [
    "C113_at_once_partial",
    "C113_never_at_a_bound",
    "C113_refuted"
   ],
   "note": "Refuted for positions with a bound at the pool's tick: what is paid in can never be withdrawn by anybody. Holds at once otherwise; later only as far as C42/C43 allow (top-ups of others can take a token from the vaults)."
  },
  {
   "property": "C114",
   "status": "proved",
   "theorems": [
    "C114_deposit"
   ],
   "note": "For pools as in C104 (created on an LP mint without tokens, X and Y not the LP token).  The account of the pool's tick is written back unchanged."
  },
  {
   "property": "C115",
   "status": "proved",
   "theorems": [
    "C115_withdrawal"
   ],
   "note": "As C114."
  },
  {
   "property": "C116",
   "status": "proved",
   "theorems": [
    "C116_whole",
    "C116_bundles",
    "C116_tokens"
   ],
   "note": "The all-or-nothing execution of transactions is the Solana runtime's and part of the trusted base."
  },
  {
   "property": "C117",
   "status": "proved",
   "theorems": [
    "C117_f64_goal_left",
    "C117_f64_goal_right"
   ],
   "note": "Going right the lookup panics when the current tick is not a multiple of the spacing (C86); the theorem is about the calls that return."
  },
  {
   "property": "C118",
   "status": "proved",
   "theorems": [
    "C118_f64_hmm_x",
    "C118_f64_hmm_y",
    "C118_f64_hmm_off"
   ],
   "note": "The theorem compares swaps that both go through; whether a swap goes through does depend on the parameter (C87)."
  },
  {
   "property": "C119",
   "status": "proved",
   "theorems": [
    "C119_f64_fee_x",
    "C119_f64_fee_y"
   ],
   "note": "f64 twin of C57. The pool does not check its rate when it is created; the theorem is about rates in [0, 1)."
  },
  {
   "property": "C120",
   "status": "partial",
   "theorems": [
    "C120_position_partial",
    "C120_worth",
    "C120_refuted"
   ],
   "note": "Without the term for top-ups the claim is false of the code (C120_refuted: a user pays nothing and leaves with 2 X and 1 Y of another user); with it, it is proved for all histories of the ledger."
  },
  {
   "property": "C121",
   "status": "partial",
   "theorems": [
    "C121_vaults_partial",
    "C121_refuted"
   ],
   "note": "Without the term for top-ups the claim is false of the code (C121_refuted); with it, it is proved for all histories of the ledger."
  },
  {
   "property": "C122",
   "status": "partial",
   "theorems": [
    "C122_f64_step_x",
    "C122_f64_step_y",
    "C122_f64_down_partial",
    "C122_f64_down_refuted",
    "C122_f64_dust_refuted"
   ],
   "note": "Accuracy and the direction of Y steps are proved. The direction of X steps is false for dust amounts (C122_f64_down_refuted), and a swap of such an amount panics in a pool started at price 4 (C122_f64_dust_refuted); above the stated threshold it is proved."
  },
  {
   "property": "C123",
   "status": "partial",
   "theorems": [
    "C123_f64_pays_x_partial",
    "C123_f64_pays_y_partial",
    "C123_f64_round_trip_refuted"
   ],
   "note": "The claim as stated is false (C123_f64_round_trip_refuted: a round trip with 2.2*10^-11 X returns 1.99 times as much, in a pool with 1000 X). Proved: the amounts are within 8 (9) rounding units of the reserves of what the curve gives, for single steps."
  },
  {
   "property": "C124",
   "status": "partial",
   "theorems": [
    "C124_f64_fill_y",
    "C124_f64_fill_x_partial",
    "C122_f64_dust_refuted"
   ],
   "note": "Proved in full for Y. For X it is false for dust amounts (C122_f64_dust_refuted) and proved above the stated threshold."
  },
  {
   "property": "C125",
   "status": "partial",
   "theorems": [
    "C125_f64_log_quote_x",
    "C125_f64_log_step_y",
    "C125_f64_log_past_y",
    "C125_f64_log_quote_y_sign",
    "C125_f64_log_quote_y_refuted"
   ],
   "note": "Proved for the X quote and for steps of Y swaps, whether they end below or past the oracle price. False for the Y quote, which has the wrong sign with every accurate library (C87)."
  },
  {
   "property": "C126",
   "status": "proved",
   "theorems": [
    "C126_f64_power_quote_x",
    "C126_f64_power_quote_y",
    "C126_f64_power_step_x",
    "C126_f64_power_step_y",
    "C126_f64_power_past_x",
    "C126_f64_power_past_y"
   ],
   "note": "About the quotes and the steps of swaps, whether they end before or past the oracle price. Values of C below 1/2 (where 1 - C is itself rounded) and above 2 are outside the statement."
  },
  {
   "property": "C127",
   "status": "partial",
   "theorems": [
    "C127_curve_holds_back",
    "C127_curve_holds_back_y",
    "C127_curve_holds_back_c",
    "C127_curve_holds_back_y_c",
    "C127_curve_past_oracle",
    "C127_curve_past_oracle_y",
    "C127_f64_adjusted_step_y_partial",
    "C127_f64_adjusted_step_x_partial",
    "C127_f64_small_adjustment_y_refuted",
    "C127_f64_small_adjustment_x_refuted",
    "C127_f64_past_oracle_y_refuted",
    "C127_f64_past_oracle_x_refuted"
   ],
   "note": "False of the code: in a pool with 10^9 X, C = 2 and an oracle price 10^-8 away, 6500 Y (1900 X) are refused while 7000 Y (1850 X and 1950 X) go through, with correctly rounded powers. Swaps that go past such an oracle price are refused whether they bring 10^6, 10^8 or 5*10^8. The adjustment of the exact curves is positive for every positive C, for steps up to the oracle price and past it. Proved: for C from 1/2 to 2 other than 1, a step that goes through without adjustment goes through with it if the distances covered and left to the oracle price have a product, times the distance of C from 1, of at least 64 * 2^-53 of the squared price (ordinary sizes, step ending before the oracle price)."
  }
 ]
}