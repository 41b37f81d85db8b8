# Design of the formal model

Subject: `/repo` (Rust program `hmmcl-sandbox`): fixed-point `Decimal` library,
concentrated-liquidity math (`PoolMath`), the in-memory pool `cl_pool::Pool`
(deposit / withdraw / swap with HMM adjustment), the tick bitmap and the on-chain
instructions (initialize_pool, initialize_bitmap, initialize_tick, create_position,
deposit, withdraw).

All Coq files live in `rocq/theories` (logical name `Verif`).  Paths below are relative to
`/repo/programs/hmmcl-sandbox/src`.

## 1. Layout

| file | content |
|---|---|
| `Base.v` | outcome monad `res` (`Ok`/`Err`/`Panic`/`NoFuel`), checked u128 primitives, bounded-loop combinator |
| `DecimalModel.v` | `decimal.rs` arithmetic, comparison, powers, sqrt, ln |
| `DecimalStr.v` | `Display` and `from_str_radix` of `decimal.rs` |
| `MathModel.v` | `cl_pool/cl_math.rs` |
| `PoolModel.v` | `cl_pool/cl_components.rs`, `cl_pool/mod.rs` |
| `BitmapModel.v` | `state/tick_bitmap.rs` |
| `ChainModel.v` | `state/*.rs`, `instructions/*.rs`, `lib.rs` as a transaction state machine |
| `Conformance.v` | the repository's own unit-test expectations replayed on the model with `vm_compute` (tests, not proofs; they are evidence that the model is faithful) |
| `DecimalSpec.v`, `StrSpec.v`, `ChainSpec.v` | vocabulary of the claims, written without the model's helper functions |
| `*Proofs.v`, `*Lemmas.v`, `TickLoop.v`, `SwapLoop.v`, `Pool{Wf,Inv,Nonneg,Lp,Fees,Range,Dir}.v`, `Chain{Inv,Flow,Live}.v` | lemmas |
| `PoolGain.v` | claims on the reserves in histories without swaps |
| `PoolScale.v` | every stored number has scale 12 and no negative zero; when fee growth can be computed |
| `PoolExit.v` | when a withdrawal completes: exact conditions, and unconditionally in histories without swaps and top-ups |
| `PoolEnter.v` | when a deposit completes: for new positions exactly if no growth inside the range is negative |
| `SwapAmounts.v`, `SwapCover.v`, `SwapWorth.v`, `LpWorth.v` | amounts of swaps, deposits and withdrawals against the exact (rational) curve; histories with accumulated rounding allowances |
| `SwapFair.v`, `LpFair.v` | the same comparison from the other side: nobody gets less than the exact curve gives, up to rounding |
| `FeeCredit.v`, `FeePots.v` | growth credited by a swap to each position; pots against what all positions are due |
| `PowAccuracy.v`, `PowDec.v` | error bounds for integer powers; powers with a decimal exponent |
| `HmmUse.v` | for which HMM parameters a swap towards the oracle price is computed |
| `LnSeries.v` | rational bounds of ln(a/b) by a computable check |
| `LnAccuracy.v`, `LnUse.v`, `LnHmm.v`, `LnFacts.v` | error bound of `ln`; the tick of a price; the HMM adjustment at C = 1; an exact log2 oracle and witnesses |
| `HmmCurve.v`, `HmmSend.v`, `HmmPrice.v`, `HmmFacts.v` | error bound of the HMM adjustment for C = 5/4, 3/2, 2 against real powers; the three ways a step's payout arises; the price one step pays |
| `SwapReport.v`, `PoolParams.v` | reported prices; starting price and parameters of new pools |
| `HmmSwap.v`, `HmmOff.v` | whole swaps with an oracle price: price floor and cap; oracle prices that change nothing |
| `SwapMono.v`, `SwapSplit.v` | two swaps of different size from one state; sequences of swaps that take the same total |
| `BoundProofs.v` | range bounds recovered from amounts |
| `SwapStuck.v` | swaps that cannot complete: tick 0, small amounts |
| `SwapLive.v` | swaps that complete: every operation of a swap inside one range succeeds |
| `FloatBase.v`, `FloatModel.v` | `cl_pool_float/*`: the f64 twin of the pool, on the standard library's `SpecFloat` (binary64) |
| `FloatConformance.v` | the repository's tests of the f64 pool replayed on the model; every number they assert is met to the last bit |
| `FloatFacts.v`, `FloatWf.v`, `FloatSwap.v`, `FloatLp.v`, `FloatBook.v`, `FloatStuck.v`, `FloatTrip.v` | real-number facts about f64 operations (through Flocq); well-formedness; swaps; deposits and withdrawals; liquidity bookkeeping; calls that cannot succeed; round trips |
| `FloatWit.v` | concrete f64 pools used as witnesses, with a table of `ln`/`powf` values |
| `FloatLog.v`, `FloatLib.v`, `FloatTick.v`, `FloatConv.v` | the f64 bit length and `Into<f64>`; libraries right within one unit in the last place (they exist; one with the GNU values); the bit length on tick prices and next to powers of two; conversion error and f64 tick round trips |
| `FloatFlow.v` | rounding of each fund update; swap loops as chains of updates; accumulated error; reserves |
| `WdSplit.v` | a withdrawal in two parts: it completes, and what it pays |
| `LpOrder.v`, `LpOrder2.v` | all effects of a deposit and of a withdrawal; both carry over to pools that look the same from the position's point of view; commutation |
| `SwapFull.v` | a swap filled in part leaves nothing on its side of the pool |
| `FloatOut.v` | when a withdrawal from the f64 pool completes |
| `ChainOrder.v` | terms of a deposit on chain, transactions of others before it, order of transactions |
| `FloatTerm.v` | termination of the f64 swap loops |
| `FloatFee.v` | fees of f64 swaps |
| `FloatMove.v` | single price steps of the f64 pool, and what is paid for them |
| `FloatFill.v` | swaps of the f64 pool that stay in one range |
| `FloatCurve.v` | quotes of the f64 pool with C = 1 |
| `FloatPower.v` | quotes of the f64 pool with C other than 1 |
| `FloatNear.v`, `FloatNearC.v` | constant product quotes of the f64 pool, a step with and without adjustment; when the HMM quote (C from 1/2 to 2, not 1) is seen to be below the constant product quote |
| `FloatFin.v` | sizes of the f64 pool's numbers; calls that keep the reserves finite |
| `FloatIn.v` | deposits into the f64 pool that are accepted; amounts that are never below zero |
| `WorldFlow.v` | flows of tokens through positions and vaults on the ledger |
| `FloatHmm.v` | two f64 swaps that differ in the HMM parameter and oracle price |
| `FloatLook.v` | where f64 swaps head, and the liquidity in force through the passes of a swap |
| `WorldModel.v`, `WorldSpec.v` | the ledger: all accounts by address, any number of pools, mints and users; instructions receive arbitrary accounts and check the constraints of the `Accounts` structs; vocabulary |
| `WorldProofs.v`, `WorldInv.v`, `WorldSim.v`, `WorldStep.v`, `WorldThm.v`, `WorldLive.v`, `WorldFx.v`, `WorldEx.v` | ledger invariant, simulation of the single-pool model, histories, concrete ledgers |
| `XOffer.v` | deposits in which X is the scarcer token |
| `BytesModel.v`, `BytesProofs.v` | the seeds of the on-chain addresses; the stored bytes of the accounts and reading them back |
| `Examples.v` | concrete reachable pools used as witnesses |
| `PropDecimal.v` C01-C07, C10; `PropString.v` C08-C09; `PropTick.v` C11-C14, C46; `PropMath.v` C15-C17; `PropSwap.v` C18-C22, C26, C28; `PropPool.v` C23-C25, C27, C29-C34, C47-C51; `PropLp.v` the parts of C32, C48, C51 that hold; `PropBitmap.v` C35-C36; `PropChain.v` C37-C45, C52; `PropWorth.v` C53-C55; `PropFair.v` C56-C59; `PropFees.v` C60-C61 and a part of C32; `PropPow.v` C62-C64; `PropLn.v` C65-C67; `PropHmm.v` C68-C70; `PropReport.v` C71-C73; `PropSplit.v` C74-C75; `PropBound.v` C76; `PropStuck.v` C77-C78; `PropLive.v` the part of C77 that holds; `PropFloat.v` C79-C88; `PropLog.v` C89-C91; `PropFlow.v` C92-C94; `PropWd.v` C95; `PropOrder.v` C96-C98; `PropFull.v` C49 (what holds of it); `PropBytes.v` C99-C100; `PropOut.v` C84 (what holds of it); `PropXOffer.v` C101; `PropChainOrder.v` C102-C103; `PropWorld.v` C104-C109; `PropWorldLive.v` C111-C113; `PropWorldFx.v` C114-C116; `PropLook.v` C117 and the swaps of C93; `PropFHmm.v` C118; `PropFFee.v` C119; `PropWorldFlow.v` C120-C121; `PropFMove.v` C122; `PropFPay.v` C123; `PropFFill.v` C124; `PropFCurve.v` C125; `PropFPower.v` C126; `PropFPast.v` C126 (past the oracle price); `PropFNear.v`, `PropFThru.v` C127; `PropFFin.v` C79 (what holds of it); `PropFIn.v` C85 (what holds of it, and refusals by the quote); `PropTerm.v` C110 | the theorems, each with a concrete non-trivial case and `Print Assumptions` |

## 2. Modelling decisions

* Rust integers are `Z` with explicit range checks.  Every `checked_*` / `expect` / `unwrap` /
  `panic!` / `assert!` / out-of-bounds index becomes the outcome `Panic`.  `Result::Err` becomes
  `Err code`; `.unwrap()` on it becomes `Panic`.
* Plain `+`/`-`/`pow` on integers follow the overflow-checked (debug / `cargo test`) semantics in the
  library; in the on-chain handlers `new_fee.f_x + new_fee.h_x` wraps (release build).
  Every place is commented.
* A Rust `loop`/`while` is a fuel-bounded recursion whose exhaustion is the distinguished outcome `NoFuel`;
  separate theorems show `NoFuel` is unreachable (that is the termination claim).
* `f64` appears only in `bit_length` (used by `ln`, hence only by `rp_to_tick` and the HMM formulas with c = 1).
  The floating-point result is a parameter `log2_oracle` of the model functions that need it; theorems are
  universally quantified over it.  `FloatLog.v` instantiates it with the code's f64 expression (`f64_log2`), again for any `libm`; for C89, C91 and C125-C127
  `ln` and `powf` are assumed right within one unit in the last place (`libm_ln`, `libm_pow`), an assumption shown satisfiable by the correctly rounded functions.
* `cl_pool_float`: every `+ - * / sqrt < <= ==`, `floor`, `ceil` and cast is the IEEE 754 binary64 operation of `Coq.Floats.SpecFloat`, in the
  order of the code.  `ln` and `powf` are not fixed by IEEE 754: they are a parameter (`libm`) of the model; theorems hold for every one that returns f64
  values (`libm_ok`).  Witnesses use a table of the values glibc returns.  `powi(2)` is one multiplication.  `min`/`max` of two zeros of different sign may return either in Rust; the model fixes one.
* `BTreeMap` is a key-sorted association list, `HashMap` an association list (never iterated by the code).
* `println!`/`msg!`/`emit!` produce no state; the checked arithmetic inside the `println!` arguments of
  `deposit`/`withdraw` is modelled because it can panic.
* On chain: one pool; accounts are maps keyed by the PDA seeds; a failed instruction leaves the state unchanged
  (Solana transaction atomicity); Anchor deserialises each account of the `Accounts` struct separately and writes
  `mut` accounts back in declaration order at exit (so when the same tick account is passed twice the last copy wins);
  SPL token transfer/mint/burn are checked u64 balance updates.
* `WorldModel.v` drops the assumption of one pool and of correctly passed accounts: the state is a map from addresses to accounts.  An address is a key or
  is derived from seeds, one constructor per kind (justified by C99: different kinds and seeds are different byte strings; the hash is taken to be injective).
  Every instruction takes the addresses the caller passes and makes exactly the checks of the `#[account(...)]` attributes, account types included;
  the token program checks mint, owner or authority, and amounts.  C104 proves that `ChainModel.v` is what a pool sees of this ledger.

## 3. Not modelled

* `cl_python` (notebooks).
* Of `cl_pool_float/*`: the printing functions; `ln` and `powf` are a parameter (section 2).
* `instructions/archive.rs` (all comments), events' payload encoding, rent, the search for bump values, the bytes of the bitmap account, signer checks other
  than "the user is the key in the seeds".

## 4. Proof technique per property

For each claim the theorem(s) are listed in `MANIFEST.json`; claims that are false of the faithful model are recorded as
`..._refuted` theorems (concrete witness) next to the strongest true variant (`..._partial`).

| id | model | proof |
|---|---|---|
| C01-C05, C10 | DecimalModel | case analysis + `lia`/`nia` against a rational-valued spec |
| C06 | DecimalModel.sqrt | Newton invariant (`y >= isqrt n`, strict decrease), measure for termination |
| C07 | DecimalModel.pow | induction on the exponent's bits |
| C08, C09 | DecimalStr | digit-string lemmas by induction; witness for C09 |
| C11, C46 | MathModel.tick_to_rp | low-to-high bit comparison: a gap of ~5e7 units survives <= 128 truncations; error accumulation against exact powers |
| C12-C14 | MathModel | loop invariant; witness for C13 |
| C15-C17 | MathModel | truncation inequalities (`nia`) |
| C18-C22, C26-C28 | PoolModel swap loops | loops analysed as chains of single steps; loop invariants; lock-step simulation of two pools for C28 |
| C23-C25, C27, C29-C34, C47-C51 | PoolModel histories | inductive invariant on reachable states; witnesses by `vm_compute` |
| C51 (bound) | PoolModel histories of deposits and withdrawals | claims as explicit floor formulas (`PoolGain.v`); each call changes claims of any set of users by no more than its flow plus the rounding of splitting a floor |
| C35, C36 | BitmapModel | `Z.testbit` reasoning |
| C37-C45, C52 | ChainModel histories | inductive invariant `cinv` on reachable program states, exact effect of each instruction, flow inequality per instruction; witnesses by `vm_compute` |
| C53-C55 | PoolModel swaps, deposits, withdrawals | exact worth of positions as a sum of rationals; each step of the swap loop compared with the integral over its price interval; induction over histories |
| C56-C59 | PoolModel swaps, deposits, withdrawals | opposite inequalities for every formula; the same chains of steps |
| C60-C61 | PoolModel swaps, deposits, withdrawals | each step of a swap moves the growth above each tick by the same amount ("shared") and the pot by liquidity times it ("filled"); sums over positions; deposits and withdrawals keep the growth inside other ranges |
| C62-C64 | `d_pow`, `d_pow_dec`, `d?_from_l_drp_hmm`, swaps | induction on the bits of the exponent with relative/absolute error; case analysis of the exponent menu; first step of a swap |
| C65-C67 | `d_ln`, `rp_to_tick`, `d?_from_l_drp_hmm` | the 90 table entries are compared with real logarithms by a verified series check; the ten columns telescope; quotient of two bounded logarithms; small ticks by computation |
| C68-C70 | `d?_from_l_drp_hmm`, `swap_within_?`, `execute_swap_from_?` | error of each rounded operation carried through the curve; mean value bounds on the curve; invariant over the moves of a swap with the price so far |
| C71-C73 | `finish_?`, `pool_new`, `swap_within_?` | truncation inequalities; the search lemmas of C12 and the accuracy of C46; invariant "taken = fee" over the moves of a swap |
| C74-C75 | `execute_swap_from_?`, `swap_within_?`, `d?_from_l_drp`, `rp_new_from_l_d?` | lockstep induction over the loops of two swaps; comparison of the exact worth of all positions at the two final prices (C54, C56) |
| C76 | `rpa_from_l_rp_y`, `rpb_from_l_rp_x`, `rpa_from_x_y_rp_rpb`, `rpb_from_x_y_rp_rpa` | truncation inequalities against the exact amounts of a range |
| C77-C78 | `swap_within_?`, `swap_out_new`, `cross_tick` | first move of the loop: the amount taken is too small for one unit of root price (X: average-price check, Y: zero payout); last move of the loop at tick 0 |
| C89-C91 | `f64_log2`, `d_into_f64`, `f_rp_to_tick` | relative error of each rounding; a power of two cannot be crossed by less than 10^-12; the 38 ticks around powers of two by computation and monotonicity in between |
| C96-C98 | two calls in both orders | growth above a tick is kept by every deposit, and by a withdrawal unless the tick disappears; a position with liquidity keeps its ticks |
| C99 | seeds of the program's accounts | each kind has its own total length; fixed-width parts can be split off again |
| C100 | Borsh layout of pool, tick and position | every stored figure fits its field in every reached state |
| C101 | liquidity from X and back | integer inequalities at scale 12: the product of the two prices is cut once on the way in and again on the way out |
| C102-C103 | order of transactions on chain | the effect of an instruction on each balance and position is a number that depends on its arguments only; pool and ticks are sums over positions (C38), so they follow |
| C110 | f64 swaps end | lexicographic measure: distance of the amount taken from the amount offered in units of 2^-1074 (a pass without crossing reaches the next f64 number, by a midpoint argument), then the number of active ticks ahead; ticks of reachable pools are u32 |
| C117, C93 (swaps) | f64 lookups; liquidity in force through swaps | ticks of reachable pools are sorted multiples of the spacing, so rounding the start tick down passes no tick in use; crossing a tick changes the sum over the ranges that contain the tick by the net recorded there (C80), and the additions are exact below 2^53 |
| C118 | f64: the HMM adjustment changes only what the trader receives | a simulation between the two loops: price, tick, goal, amounts in and fees never read the oracle, the parameter or the HMM cells |
| C119 | f64: the fee is the advertised fee | error of each rounded operation, invariant over the passes of the loop |
| C120, C121 | ledger: what positions pay out, and what the vaults hold, against what was paid in | each instruction as the single-pool model sees it, flow inequality of that model, exact effects (C114, C115) |
| C122 | f64: price steps are accurate and go the right way | relative error of each rounded operation; witness found among the prices of ticks |
| C123 | f64: pays by the curve | relative error of each rounded operation; witness found by search over dust amounts |
| C124 | f64: swaps within a range are filled | each run-time check of the pass discharged with the error bounds of C122 and C123; the fee is split off exactly (Sterbenz) |
| C125 | f64: C = 1 pays by the logarithm | error of a quotient passed through ln, then two products; the curve is given by its derivative; sign error for Y |
| C126 | f64: C other than 1 | 1 - C is exact from 1/2 to 2 (Sterbenz); errors of the powers, their difference, the product and the quotient; the curve is given by its derivative |
| C127 | f64: small adjustments | two rounded quotes that differ by less than their errors; witnesses found by search, with correctly rounded powers (C = 2), for swaps that end before the oracle price and for large ones that go past it; error bounds of both quotes show when the order is kept |
| C104-C109 | the ledger of all accounts | invariant `winv` of reachable ledgers (vault owners, mint authorities, supplies are sums of balances); forward simulation: a step of the ledger is a list of single-pool instructions; facts about one step lifted to histories |
| C111-C113 | what users can do on the ledger | backward simulation: each part of an accepted single-pool instruction (constraints, mint, burn, transfers) succeeds on the ledger for the derived accounts; C112 and C113 then carry C102 and C43 over |
| C114-C116 | one deposit or withdrawal on the ledger; transactions | the accounts after each token call are followed one by one, the amounts come from the single-pool effect (C39, C45) through C104; transactions by induction |
| C95 | `withdraw` twice | the conditions under which a withdrawal completes, at the pool after the first part; the fee counters there are those just recorded; products rounded down are superadditive |
| C92-C94 | FloatModel histories | error of one addition from the size of its result; funds are monotone along a swap, so intermediate values lie between the endpoints; integer books for the liquidity in force |
| C79-C88 | FloatModel histories | invariants over reachable states; sums of whole numbers below 2^53 are exact; relative error of two roundings for the amount taken; witnesses by `vm_compute` |

## 5. Findings (claims that are false of the code as written)

* C04 `to_scale_up` drops the sign of negative numbers.
* C05 negative zero (produced by `mul`) compares below zero.
* C06 `sqrt` of a negative number is not rejected.  C07 `pow` of a negative base has the inverted sign.
* C09 a fraction with a positive exponent is dropped when parsing; exponents wrap modulo 256.
* C10 `Into<i32>` wraps.  C13 tick 3 -> price -> tick gives 2.
* C15 the x amount recomputed from granted liquidity can exceed the offer; on chain such deposits fail (`DepositAmountExceeded`), in the library they panic.
* C25 liquidity in range is wrong after swaps ending on or next to an active tick.
* C31 a new position is paid fees accrued before it existed; from then on the pots are short (C61).  C32/C48/C49 withdrawals, deposits and large swaps that panic.
* C34 pools with spacing > 1 get stuck in one direction.  C51 many dust deposits gain a few units in the last place.
* C38/C43 on chain the account of the pool's current tick is overwritten by a stale copy: it always reads zero, and positions with a bound there can never be withdrawn.
* C53/C54 a swap of 10^-12 X (all of it fee) is paid `liquidity * 10^-12` Y; repeating it and selling the Y back yields X for nothing.
* C55 after the state of C25 one ordinary swap leaves the reserves hundreds of units short of what the positions are worth.
* C42 on chain repeated dust deposits cost nothing and can be withdrawn together for other users' tokens.
* C63 at scale 1 exponent 0.2 is taken for 1/4.
* C64 pools created with 0 < C < 1, with 1 < C < 2 other than 5/4 and 3/2, or with C not given at scale 12 panic on every swap towards the oracle price; with C = 1 every X-in swap does (the logarithm has the wrong sign); with C = 2 swaps panic when the oracle price is close to the pool price (the rounded adjustment turns negative).
* C65 `ln` returns nothing from 2^128/10^24 (about 3.4*10^14) up and below 2^-19; between 2^-19 and 2^-6 its error grows up to 0.68; when the f64 bit length is rounded up just below a power of two (as it is for 2^11 - 10^-12) the result is off by 0.09.
* C66 the logarithmic tick lookup gives tick 1 for the price of tick 2, ignores its direction flag, loses the sign of ticks of prices below 1, and can round up to the next tick.
* C67 at C = 1 the adjusted Y amount always has the wrong sign.
* C70 an oracle price within 10^-6 of the pool's price, on the better side, makes swaps panic (C = 3/2): rounding makes
  the adjustment negative and it is asserted to be non-negative.
* C72 a pool asked to start at a price below 1 silently starts at price 1.
* C73 pool creation accepts fee rates of 100 % and more (every completed swap then takes its whole input as the fee) and fee rates
  not at scale 12, such as 0.003 at scale 3 (every step of every swap then panics).
* C74 the formulas of the swap from Y are not exactly monotone: paying 10^-12 more can yield 10^-12 less.
* C76 `rpb_from_l_rp_x` returns the bound 0 instead of panicking when the liquidity cannot hold the amount in any range.
* C77 swaps too small to move the root price by one unit (10^-12) abort, in both directions; so do swaps that cross a tick and have that
  little left (835.1224 X in the example pool, although 835.12236 X and 835.13 X complete).
* C78 nothing can be traded inside a range that starts at tick 0: `tick - 1` underflows.
* C79 (f64 pool) a deposit between equal ticks makes both reserves NaN.  (With numbers of ordinary size and ranges whose prices differ they stay finite: `C79_f64_reserves_partial`.)  C80 after fractional withdrawals ticks stay active and liquidity in range remains although no position is left.
  C81 a new position is credited earlier fees.  C82 a swap can take one unit in the last place more than offered.  C84 positions that can never be withdrawn (rounding).  C85 ranges just below an active tick accept no deposit; a new pool refuses some amounts because its own quote, rounded, exceeds the offer.
  C86 with spacing > 1 no Y swap succeeds off the grid.  C87 with C = 1 X swaps towards the oracle panic.
* C89 from 2^14 on 2^k and 2^k - 10^-12 are the same f64, so whatever the library one of them gets the wrong bit length; if 2^k is right then ln of the other is off by 0.09.  C90 converting a negative decimal to f64 drops the sign.
  C91 (f64 pool) the price of tick 2 belongs to tick 1 with the GNU library, so aligned bounds can slip by a whole spacing.
* C93 (f64 pool) a Y swap ending exactly at the upper end of a range sets the tick to that end without crossing it: the liquidity stays in force, and when the provider withdraws it is not taken back.  C94 trades then use liquidity nobody provided; the next provider is paid out of funds the pool does not have, and the recorded reserve becomes negative.
* C98 a provider who opens a position in a range just before its last other provider leaves is later paid fees collected before; just after, not.
* C44 the on-chain bitmap is only ever touched at bits 0 and 40000.
* C101: when X decides the liquidity of a deposit (a range above the price, or X the scarcer token), the liquidity is x*r*b/(b-r) and the X needed is computed back by dividing through r*b cut to 12 decimals (`cl_math.rs` `liq_x_only`, `x_from_l_rp_rng`).  The result exceeds x as soon as x is above a threshold that depends on r and b alone (41 tokens for the range 5..20 at tick 10).  The decimal pool then panics, the program on chain returns `DepositAmountExceeded`: 1000 X on their own can never be placed above the price.  Y-limited deposits are not affected.
* C103: the order of transactions matters on chain for one account only, the bitmap.  User 2's withdrawal clears bits 0 and 40000 (C44); a deposit of user 1 at the current tick sets bit 40000.  Whichever lands last decides.
* C107: `InitializePool` checks the authority of the LP mint but not that its supply is zero.  Whoever creates the mint can mint LP tokens for itself and then hand the mint to the pool address: LP supply 500, liquidity 0.  C108: creation needs no signature of the creator of the LP mint, and tick and price can never be changed afterwards; so the first caller fixes them for good.
* C109: nothing requires X and Y to differ from the LP token.  In a pool with X = LP the deposit first mints the LP tokens to the user and then takes X from the same account: a user without any token deposits, on a ledger on which no token exists at all.
* C113: on the ledger, too, a position with a bound at the pool's tick takes 999 Y and gives nothing back, whatever accounts are passed and whatever happens in between.

## 6. Trusted base

* Coq 8.16.1 kernel (including `vm_compute`; `coqchk` re-checks everything without it, so the heavier concrete runs are
  stored as literals by `Definition r := Eval vm_compute in ...` and linked by small steps).
* `Print Assumptions` is executed beside every theorem of the `Prop*.v` files.  Every one reports
  `Closed under the global context`, except the theorems of `PropLn.v` and `PropHmm.v` that speak about, or are proved with, real logarithms and powers (C65-C69), and those about the f64 pool that are proved through Flocq's theory of rounding to real numbers: some theorems of `PropFloat.v` (C80-C83, C85-C88), `PropLog.v` (C89-C91) and `PropFHmm.v` (C118), and all of `PropFlow.v` (C92-C94), `PropOut.v` (C84), `PropTerm.v` (C110), `PropLook.v` (C93, C117), `PropFFee.v` (C119), `PropFMove.v` (C122), `PropFPay.v` (C123), `PropFFill.v` (C124), `PropFIn.v` (C85), `PropFFin.v` (C79), `PropFCurve.v` (C125), `PropFPower.v` and `PropFPast.v` (C126) and `PropFNear.v` and `PropFThru.v` (C127).  These depend on
  the standard library's construction of the real numbers: `ClassicalDedekindReals.sig_forall_dec`, `ClassicalDedekindReals.sig_not_dec`,
  `Classical_Prop.classic` and `FunctionalExtensionality.functional_extensionality_dep`.  No axiom is our own.
  (The axioms of `Coq.ssr.ssrunder` reported by a whole-library check belong to a module type of the loaded standard library; no theorem depends on them.)
* Faithfulness of the model definitions (each cites file:lines), supported by `Conformance.v` and `FloatConformance.v`.
* The environment of the program, as modelled in `ChainModel.v`: transactions are atomic; Anchor loads each account of the `Accounts` struct
  separately and writes them back in order; SPL token operations are checked u64 updates; nobody but the program
  moves tokens out of the vaults or mints LP tokens; token delegation and freezing are not modelled; at genesis
  no program account and no LP token exists, X and Y balances are arbitrary u64 amounts; anybody may at any time transfer own tokens (also to the vaults) and burn own LP tokens.
* For C104-C109, C111-C116 and C120-C121, as modelled in `WorldModel.v`: different seeds give different addresses, and no key holder can sign for a derived address; token accounts and mints are created by the token program with any owner / authority; delegates, freezing, closing of accounts, decimals of mints and rent are left out; an account passed as `Account<T>` is accepted only if it holds a `T`; bumps are the canonical ones; a transaction is executed instruction by instruction and undone if one fails.
* For C99: Solana derives an address by hashing the seeds, the bump, the program's key and a fixed marker one after the other, and allows 16 seeds of 32 bytes; `to_ne_bytes` is little-endian on the target.  For C100: Borsh writes the fields in order, integers little-endian; `size_of` of a struct is at least the sum of its fields.
* For C79-C94, C110, C117-C119 and C122-C127: Rust's f64 operations are those of IEEE 754 binary64, round to nearest even (no fused or extended precision), as given by `Coq.Floats.SpecFloat`.
* `f64::log2` in `bit_length`: any function, with its result clamped to u128 by Rust's saturating `as` cast
  (`sat_u128`); theorems hold for every such function, except C65-C67 which say for which
  results of it they hold (`found`, `log2_right`).  C89 replaces this by the f64 expression of the code and the accuracy hypothesis `libm_ln`.
