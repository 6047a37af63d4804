# Formal model of ref-contracts (ref-exchange, ref-farming, mock-boost-farming) in Rocq

## 1. Approach

The Rust sources of `/repo/ref-exchange/src`, `/repo/ref-farming/src` and `/repo/mock-boost-farming/src` are modelled function by
function as executable, total Gallina functions.

* **Panics.** A function that can panic returns `option`; `None` is the panic. A NEAR receipt that
  panics has no effect, so a step of the system that evaluates to `None` leaves the state unchanged.
* **Machine integers.** `u8/u32/u64/u128`, `U256` and `U384` are `N` with explicit range checks. The
  workspace builds with `overflow-checks = true`, so overflow and underflow are panics. Truncating
  casts (`as u32`) are modelled by `mod`.
* **Maps.** `HashMap`, `LookupMap`, `UnorderedMap`, `UnorderedSet` are std++ `gmap`/`gset`.
  Account ids are `string`s, so suffix and wildcard rules are modelled on the real names.
* **Promises.** A cross-contract call is put in a list of pending calls. The remote outcome and the
  callback are separate later events, in any order, so theorems range over every interleaving.
* **Executions.** The contract is `step : env -> state -> op -> option state`. A history is a list of
  operations with arbitrary environments (caller, time, attached deposit). Properties of histories are
  proved by induction over that list with an invariant. There is no bound on lengths or sizes.

## 2. Files (all under `rocq/theories`)

| file | contents |
|---|---|
| `Base.v` | checked arithmetic, panics, small utilities (`utils.rs`, `admin_fee.rs`) |
| `BaseLemmas.v` | lemmas about these, sums over maps |
| `Sqrt.v` | `integer_sqrt` |
| `SimplePool.v` | `simple_pool.rs` |
| `StableMath.v`, `StablePool.v` | `stable_swap/*`, `rated_swap/*`, `degen_swap/*`: the same code up to constants, integer width and rates, one model |
| `Account.v`, `Pool.v`, `Exchange.v` | `account_deposit.rs`, `account_lostfound.rs`, `lib.rs`, `pool.rs`, `token_receiver.rs`, `multi_fungible_token.rs`, `owner.rs`, `shadow_actions.rs`, `donation.rs`, `storage_impl.rs` |
| `Rates.v` | `oracle.rs`, `rated_swap/*_rate.rs`, `degen_swap/degen.rs`, `price_oracle.rs`, `pyth_oracle.rs`, rate updates in `lib.rs`/`owner.rs` |
| `Twap.v` | `unit_lpt_cumulative_infos.rs` |
| `Echo.v` | `client_echo_limit.rs`, `is_whitelisted_token` |
| `Farming.v`, `FarmingViews.v` | `ref-farming`: state changing methods; NEAR sent back, storage and farm views |
| `Boost.v` | `mock-boost-farming`: stakes with locks and boosters, farms, registrations, settings |
| `BoostViews.v` | unclaimed rewards, farms, storage balance shown by `mock-boost-farming` |
| `Keys.v` | storage keys of the three contracts |
| `FarmIds.v` | names of farms and seeds, types of seeds |
| `SpecLockup.v` | exchange and boost farm as one system |
| `Listing.v` | views of pools, pages, storage, averages, quotes at chosen rates (`views.rs`, `storage_impl.rs`) |
| `RateViews.v` | views of rates, prices, values and staked shares (`views.rs`) |
| `Oracles.v` | price oracle, pyth, rated tokens (`mock-price-oracle`, `mock-pyth`, `test-rated-token`) and price questions in flight |
| `SpecOracles.v` | spec: histories with oracles, the feed of a token, what a feed shows |
| `SpecPaths.v` | spec: pool operations, and which of them an event stands for |
| `SpecCalm.v` | spec: histories of a stable pool at one amplification with even balances, and their rounding |
| `SpecCalmWorld.v` | spec: events of the exchange that are calm for one of its stable pools |
| `SettingsViews.v` | views of settings, fees, lists of the owner, and of pool shares as tokens |
| `Token.v` | `mock-wnear` |
| `SpecToken.v` | the wrapped-NEAR contract alone and together with the exchange |
| `SpecStake.v` | the exchange together with ref-farming |
| `SpecFarmToken.v` | ref-farming together with a token contract |
| `SpecShadow.v` | requests to farm and lender, their books and answers (contracts outside the repository, assumed honest) |
| `SpecBoost.v` | calls, incoming tokens and histories of the boost farming contract with the tokens and NEAR it holds |
| `SpecExchange.v` | what users own and what the exchange owes; no model function beyond the record fields |
| `SpecWorld.v` | the world around the exchange: token contracts, transfers in flight, their outcomes and callbacks |
| `SpecSwap.v` | chains of trades: what is paid, what is got, what is counted as volume |
| `SpecExact.v` | integers at most the exact StableSwap invariant, charged trades, imbalance fees |
| `SpecRecords.v` | what one pool share stands for, events that look at it |
| `SpecListed.v` | reasons for a new token on an account's list |
| `SpecExit.v` | what a user needs to leave: ready to call, standard tokens, room for entries, what shares are worth |
| `SpecHistory.v` | observations along histories: storage coverage, shadow-staked shares, moved shares |
| `SpecSettings.v` | what every setting is after an event, bounds of fees |
| `SpecNear.v` | NEAR credited, sent, kept and used for storage, along histories |
| `SpecFarmNear.v` | NEAR of the farmers along histories, storage paid for, rewards brought |
| `SpecFarmLive.v` | times, terms and records under which farming calls succeed |
| `SpecTrade.v` | several trades in one direction |
| `SpecAccess.v` | privileged calls, settings, frozen tokens, pausing |
| `ExExample.v` | concrete executions used by the non-vacuity examples |
| `*Proofs.v`, `*Inv.v`, `*Effect.v`, `*Frames.v`, `*Facts.v` | proofs only |
| `Spec*.v` | specifications that do not mention the model's helpers |
| `Prop*.v` | the property theorems, with `Print Assumptions` and non-vacuity examples |

## 3. Plan per property

| id | modelled | how proved |
|---|---|---|
| C01 | whole exchange with a ghost ledger of what each token contract holds for the exchange | invariant over all histories: ledger + returning transfers >= deposits + pool reserves + lostfound + in flight |
| C02 | share maps of all pool kinds | invariant: supply = sum of shares |
| C03 | simple pool `swap`, `swap_by_output` | arithmetic: out < reserve |
| C04 | same | arithmetic on the floor formula |
| C05 | sequences of swaps by anyone on one pool | from C04: reserves of one token cannot fall while the other is not higher |
| C06 | `get_return_by_output` against `get_return` | arithmetic, both directions |
| C07 | `add_liquidity` then `remove_liquidity` | floor/ceil arithmetic |
| C08 | all simple pool operations | invariant with cross-multiplied squares; needs fee <= 100 % |
| C09 | `remove_liquidity` | floor formula |
| C10 | swap, add, remove | inversion of the asserts |
| C11 | `integer_sqrt` loop | Newton iteration invariant and termination measure |
| C12 | fee minting | arithmetic: referral + exchange = total |
| C13 | view functions against mutating ones | equality of computed outputs |
| C14 | action lists | induction over list of actions |
| C15 | `swap_by_output` chains | induction |
| C16 | stable pool swap/add/remove | floors; refuted for decimals > 18 |
| C17 | `compute_y`, `swap_to` | one Newton step already bounds y, independent of convergence |
| C18 | stable pools | inversion of `assert_min_reserve` |
| C19 | `compute_amp_factor`, ramp | interpolation bounds |
| C20 | `compute_lp_amount_*` | arithmetic given D |
| C21 | rated/degen pools | inversion; refuted for non-bootstrap deposits; induction over histories of the whole exchange (`PropRateWorld.v`) |
| C22 | rated/degen swap | superadditivity of floor |
| C23 | `ft_on_transfer`, deposit | inversion |
| C24, C25 | withdraw, callbacks, lostfound | conservation across pending list |
| C26, C27 | storage accounting | invariant `near_amount >= storage_usage` |
| C28 | legacy token map | balance preserved |
| C29, C30, C31, C52 | guards | case analysis over all operations |
| C32 | mft transfers and resolve | conservation |
| C33, C34 | shadow records, liquidation | invariant; refuted with `donation_share` |
| C35 | donations | accounting |
| C36 | cumulative price records | average between min and max of samples |
| C37 | client echo limit | string matching specification |
| C38 | all operations | pool list only grows, kind and tokens constant |
| C39 | volume counters | monotone along histories |
| C40, C41 | virtual account execution, hot zap | frame property and conservation |
| C42, C43 | farm | invariants over farm histories |
| C44, C45 | farming contract with ghost token ledger | invariant over all histories |
| C46, C47 | `try_distribute`, claim | arithmetic of sessions |
| C48 | `withdraw_seed` | refuted with stale reward records, positive part proved |
| C49 | farming withdraw callbacks | conservation across pending list |
| C50 | farm ids and status machine | invariant |
| C51 | view against claim | equality |
| C53 | farming events | case analysis over all events |
| C54 | exchange events | case analysis over all events |
| C55, C56 | predictions against executions | simulation: the cached pools differ from the executed ones only in who holds shares |
| C58 | exchange events | case analysis over all events |
| C59 | D solver | each Newton step from anywhere stays above every integer below the exact root: tangent inequality for powers, product loop rounds down |
| C60 | stable trades | error of the rounded constant of the curve bounded by a geometric sum, absorbed by one unit of fee; induction over trades; zero-fee witness |
| C61 | redemption | exact invariant is monotone and homogeneous in the balances |
| C62 | share and shadow ids | printing of numbers against parsing, induction over strings |
| C63 | average records | records carried through every call and chain of swaps; induction over histories; hot zap witness |
| C64 | withdrawals, claims | every check of the call discharged in every reachable world; solvency (C01) makes the transfer executable; old-entry witness |
| C65 | redemption | success of every step of the redemption from the reachable pool invariants; overflow excluded by solvency; converse for the least balances |
| C66 | D solver | AM-GM; a Newton step from above lands within one of the root once the balances are even; termination because every step falls |
| C67 | y solver | two-sided bound on the last Newton step, error of the rounded curve constant |
| C68, C69 | settings | case analysis over all calls; induction over histories |
| C70, C71 | NEAR of the accounts, attached, paid and locked for storage | sum over accounts, case analysis over all calls; ledger by induction over histories |
| C72–C75 | NEAR, storage and statistics of ref-farming, farm views | case analysis over all calls, invariants over histories; refutations by computed runs |
| C76 | claims, stakes and withdrawals of ref-farming succeed | bounds on all intermediate values from the invariant, records counted by induction over histories; refutations by computed runs |
| C77, C78 | simple pools | one inequality kept by every trade of either kind, induction over the parts; monotonicity of the floor formulas |
| C79–C84 | boost farming contract with a ledger of tokens and NEAR | invariant over all histories: totals are sums, rewards per power; case analysis over all events |
| C85 | the same | reachable witnesses by computed runs; general theorems about who can cause the situation and that an overdue farm freezes its seed |
| C87 | its views | simulation of the claim |
| C88 | shadow messages among exchange, farm and lender | invariant: record = book + under way, over all interleavings |
| C89 | value limit of degen pools | the floors of the computed value bounded per token; case analysis over hot zaps; computed witnesses |
| C90 | displayed share price | floors; the exact invariant is at most the sum of the balances (C49) and the computed one (C66); computed witness |
| C91 | quoted trades | simulation of the view; counters by induction over histories; overflow excluded by solvency (C01) |
| C92 | predicted liquidity | simulation of the views; overflow excluded by solvency (C01) and the share invariants |
| C93 | predicted chains and zaps | simulation of the cached views step by step along the loop; open pools, storage growth bounded by the tokens put out |
| C94 | views of pools, deposits, storage, averages | pages as lists of indices; view against call for the storage balance; sums over the pages against the solvency invariant |
| C95 | quotes at chosen rates | the quote equals the prediction of C57 in the state with these rates |
| C96 | the wrapped-NEAR contract | invariants: sum of balances, surplus of NEAR never shrinks |
| C97 | exchange and wrapped NEAR | refinement: the world of SpecWorld.v simulates the two contracts, books differ by what is under way |
| C98 | exchange and ref-farming | invariant of the joint system: stakes, withdrawals and shares under way against the farm's shares at the exchange |
| C99 | exchange and ref-farming | C48, C98, the liveness of share transfers and C65 chained over one joint execution |
| C100 | ref-farming and a token contract | invariant of the joint system: the books of both differ by what is on its way |
| C101 | exchange | every reason for a new entry as an inductive relation, case analysis over calls and receipts; refutation by an execution |
| C102 | exchange | case analysis over all calls and messages |
| C103 | all three contracts | prefix-freeness of the collections' prefixes, injectivity of borsh encodings |
| C104 | farming contracts | induction on strings (split, rsplit, decimal digits); invariant over histories of seed types |
| C105 | exchange + boost farm | invariant over the joint steps of both contracts, reusing C79, C81 and the exchange's frame lemmas |
| C106 | exchange views | the views' own reading of the stored rates against what pools check, by cases and induction on token lists |
| C107 | exchange, pools | refinement of every event to a list of pool operations; telescoping product inequality by induction on the history |
| C108 | stable pools | exact curve before the exchange's part of the fee is deposited; one-sided bounds of the computed invariant; induction on the history |
| C109 | views of settings, shares | case analysis of the calls; pages of maps as parts of the list of keys |
| C110 | price updates with their oracles and the questions in flight | invariant over histories: every question in flight is as asked, every answer as shown; last writer of each stored price |
| C86 | the same | bounds on every intermediate value from the invariant |
| C57 | quotes and liquidity predictions | the same simulation for one operation |

Where the faithful model contradicts the English statement the theorem is named `..._refuted` with a
concrete witness, and the strongest true version is named `..._partial`.

## 4. Trusted base

* Coq 8.16.1 kernel (including `vm_compute`); std++ is used as a library, no axiom of it is used.
* The axioms printed by `Print Assumptions` for each property theorem, listed in section 7.
* The correspondence between model and Rust text, documented by the comment on every definition.
* NEAR runtime semantics: receipts are atomic, token contracts follow NEP-141 (NEP-245 for MFTs).

## 5. What is modelled, and simplifications

* **Simple pools** (`SimplePool.v`): all of `simple_pool.rs`, `integer_sqrt`, fees. Histories are lists
  of pool operations by anyone.
* **Stable, rated and degen pools** (`StableMath.v`, `StablePool.v`): all of the three directories' `math.rs`
  and `mod.rs`. A pool reads time, rates and their validity from a `PoolEnv` argument. Histories are lists
  of pool operations by anyone at non-decreasing times below 2^64 ns, with arbitrary rates at each step.
* **Rates and degen prices** (`Rates.v`, histories in `SpecRates.v`): registration, answers of rate
  contracts and oracles, expiry. The answers are arbitrary values. Floating rounding does not occur.
* **Time-weighted averages** (`Twap.v`), **client-echo lists** (`Echo.v`): complete.
* **Farming** (`Farming.v`, environment in `SpecFarming.v`): all state changing methods of ref-farming and
  the reward views. Time is monotone, token contracts are honest, promises are pending entries with a
  remote event and a callback event. A FarmId is a pair. NEAR sent back is given by
  `FarmingViews.v`; the contract's NEAR is a ledger in `SpecFarmNear.v`.

* **Boost farming** (`Boost.v`, environment in `SpecBoost.v`): all state changing methods of mock-boost-farming that are not
  commented out. Withdrawals of stakes, rewards and slashed stakes are commented out in the source, so tokens only come in.
  The two `f64` expressions (boost ratio, extra power) are a parameter `Floats`; theorems hold for every behaviour, with
  `zero_extra` (0 times a ratio is 0) or `mono_extra` (monotone in the power) as stated hypotheses where needed. Views that compute
  something are in `BoostViews.v`; its `migrate` is not modelled.

* **Exchange** (`Exchange.v`): every state changing method of ref-exchange as one type `Call` with `ex_call`,
  incoming transfers (`ex_ft_on_transfer`) and the private callbacks. A method returns the new state and the
  list of promises it schedules. Storage growth measured by `env::storage_usage` is an arbitrary number of the
  environment (`e_used`, `e_freed`), hence theorems hold for every storage price. Attached NEAR is an argument;
  the
  exchange's own NEAR is a ledger along histories in `SpecNear.v`.
* **Views** (`Views.v`): predictions and quotes of `views.rs` with their pool and token caches (`lib.rs`
  `internal_execute_actions_by_cache`, `utils.rs` `TokenCache`), deposits and shares shown. `Listing.v`: pages of pools and
  deposits, storage balances, averages, quotes at chosen rates. `RateViews.v`: rates, prices, values, staked shares. `SettingsViews.v`: settings, fees, lists of the owner,
  shares as tokens. An omitted first amount of an instant swap cannot be predicted (`C55_omitted_amount_unpredicted`).
* **World** (`SpecWorld.v`): what each token contract records for the exchange (`w_hold`), transfers in flight in both directions,
  the clock. Events: a call by anyone, an arriving transfer and its notification, the remote outcome of a
  scheduled transfer, its callback. Any interleaving is a history. Token contracts are honest NEP-141.
  A remote contract that is not a token (oracle, farm, lending) may answer anything at any time.
* **Storage keys** (`Keys.v`): the byte strings under which the three contracts keep their entries, with the layouts of the
  near-sdk 3.1 collections and borsh as published. C103 is why the model may keep collections apart.
* **Names** (`FarmIds.v`): farm and seed ids as strings, why a FarmId may be a pair (C104).
* **Wrapped NEAR** (`Token.v`, executions in `SpecToken.v`): mock-wnear. The fungible token it is built on belongs to
  near-contract-standards 3.1.0, which is not in /repo; its functions are modelled as published. `SpecToken.v` also runs the
  contract together with the exchange, each refund and answer a receipt of its own; C97 shows that `SpecWorld.v`, which joins a refused
  transfer with its refund and a transfer with its answer, describes these executions. The assumption of an honest token thus holds of
  the contract in /repo. test-token, and the token part of test-rated-token, let anybody mint
  and burn and are not modelled.
* **Oracles** (`Oracles.v`): mock-price-oracle, mock-pyth and the price of test-rated-token stand for the contracts the exchange
  asks. Each question is answered at any later time by what the contract holds then, each callback runs at any time after its
  answers. In the model of the whole exchange the answers are arbitrary.
* **Shares staked in ref-farming** (`SpecStake.v`): the exchange in its world and the farm in its own as one system. The farm's
  ledger of holdings is bookkeeping there, no event depends on it; C98 shows that every step is one of `SpecFarming.v` and one of
  `SpecWorld.v`, so the assumption that share transfers of the farm are honest holds of the exchange in /repo.
  `SpecFarmToken.v` does the same for the farm and a token contract (C100).
* Findings about the code made while modelling it (each visible in the model):
  - the token of an incoming instant swap or zap is not checked against the frozen list when no action uses it, so a frozen
    token is passed on or credited; `mft_transfer` of a deposit does not look at the list either (`C29_incoming_refuted`);
  - pausing stops neither liquidations by the lending contract nor `sync_pool_twap_record` (`C30_sync_refuted`), nor the
    creation of stable pools by guardians;
  - `retrieve_unmanaged_token` can take owed tokens, and changing the wrapped-NEAR id during an unwrapping
    re-credits the wrong token (`C01_careless_owner_refuted`);
  - taking liquidity token by token pays exact amounts but subtracts them rounded down to 18 decimals, so a stable pool with a
    24-decimals token makes the exchange owe more than it holds (`C01_decimals_refuted`); the shortfall is at most the sum of the
    rounded-off parts (`C01_solvent_rounding`);
  - `donation_share` ignores shadow locks (`C33_donation_refuted`), later liquidation of the donor panics;
  - `donation_token` credits the owner's account without the storage check (`C26_owner_refuted`);
  - volume counters of simple pools count both directions in the slot of the input token, and the key is the
    pool id modulo 2^32;
  - an exact-input hop without amount takes the previous result whatever token it is, continuity is not checked;
  - rounding in the two solvers of stable pools is not always in favour of the pool: without a trading fee a round trip can
    earn one unit of 18 decimals (`C60_round_trip_refuted`);
  - several ids name the shares of one pool, e.g. `:7`, `:007`, `:+7` (`C62_id_unique_refuted`);
  - the liquidity steps of a hot zap change a recorded pool without an observation, so the next observation counts the new
    amounts for the past (`C63_zap_unobserved_refuted`; `token_receiver.rs:184-226` does not call
    `internal_update_unit_share_cumulative_info`);
  - a part of an old-format deposit entry cannot be withdrawn when the NEAR of the account is exactly its storage, because
    the entry becomes longer (`C64_old_entry_refuted`);
  - the last holder of a stable pool cannot redeem all shares (`C65_sole_holder_refuted`);
  - with very unequal balances the computed invariant of a stable pool is above the exact one by more than a unit, since
    the iteration stops at the first step of one unit (`C66_uneven_refuted`);
  - `new` does not bound the protocol's part of the fees, `modify_admin_fee` does (`C68_deployed_refuted`);
  - swaps and stake removals are payable and keep whatever is attached (`C70_swap_refuted`);
  - `callback_on_shadow` returns the storage price of a refused stake even if the record it paid for stays for another
    stake in flight; removing that one credits the price again, out of the NEAR of others (`C71_race_refuted`);
  - withdrawing a farming stake claims rewards without a storage check (`C74_always_covered_refuted`);
  - the farm view shows rewards as unclaimed that go to the beneficiary when nobody stakes (`C75_unclaimed_refuted`);
  - a farm with a session interval of zero can be created and started, every stake of its seed is locked from then on (`C76_no_interval_locks`, `C76_sane_terms_refuted`);
  - a farmer who claimed without a stake cannot stake or claim after all stakes have left, until the farm has paid as much per stake again (`C76_ready_refuted`);
  - a liquidation that takes shares whose stake is still on its way to the farm makes the report of a refused stake panic: the
    shares stay recorded as staked in a farm that has none and cannot be withdrawn any more
    (`C88_liquidation_locks_refuted`); if the farm accepts the stake after it refused the removal, it credits more than is
    held (`C88_liquidation_overcount_refuted`);
  - the value limit of a degen pool is only checked when liquidity is added, and at whatever prices are recorded: trades
    can take a pool above it (`C89_trade_refuted`), liquidity enters at expired prices at which trades are refused (`C89_stale_refuted`);
  - a price question in flight survives a change of the token's registration: the answer of the old pyth feed, or a batch
    answer read with the old decimals, is stored as a valid price of the new registration (`C110_replaced_feed_refuted`,
    `C110_old_decimals_ex`; `update_degen_token` drops the stored price, not the questions);
  - the price shown for shares of a stable pool is the sum of the balances per share, not the invariant; one trade can
    raise it by half and undoing the trade costs little (`C90_trades_refuted`);
  - boost farming: locking more for a shorter time after a longer lock has run out panics, because the power of the stake would fall and
    the growth is computed as an unsigned difference (`C85_relock_refuted`); an expired lock cannot be ended
    (`C85_expired`, `C85_no_exit`);
  - boost farming: `remove_farm_from_seed` gives what nobody claimed yet to the beneficiary (`C85_forfeit_refuted`);
  - boost farming: a farm whose start time has passed pays for all the time since at its first deposit
    (`C85_late_refuted`);
  - boost farming: the penalty of a seed is not bounded by 100 percent (`C85_slash_refuted`);
  - boost farming: a daily reward whose product with the time passed exceeds 2^128 days makes every access to the seed panic,
    for ever, including the call that would lower it (`C85_daily_stuck`, `C85_daily_refuted`);
  - boost farming: a farmer who ever staked can never unregister, because the entry of the stake stays (`C84_unregister`);
  - a degen pool with a token that has no price yet cannot be shown: `get_pool` and every page with the pool panic, since `get_amp` reads
    the prices (`C94_unpriced`); quotes for given rates panic as well (`C95_unrecorded`); `list_degen_tokens` panics as
    long as one registered token has no price (`C106_degen_none_shown`);
  - `get_tokens_paged` leaves out deposits in the old format (`C94_tokens_refuted`);
  - paged views panic if `from_index + limit` reaches 2^64 (`C94_page_shown`);
  - `get_unit_lpt_assets` is refused as a whole if one of the pools asked for has no record (`C94_assets`);
  - quotes of rated and degen pools are given at expired prices, at which trades are refused (`C95_expired_refuted`); into an
    empty pool the view for given rates still demands fresh recorded ones (`C95_add`);
  - wrapped NEAR: a sender who unregisters while a transfer with a message is under way loses what is refused: it is
    burned, its NEAR stays in the contract (`C96_answer`, `C96_surplus`);
  - shares refused by the receiver of `mft_transfer_call` go to the exchange itself if the sender has unregistered, and stay
    with the receiver if nobody can take them (`C32_resolve`);
  - `mft_transfer` of a deposited token puts it on the list of the receiver without asking, even if nobody approved the token, and
    uses up storage the receiver paid for: a later deposit of an approved token can be refused (`C101_holder_decides_refuted`);
  - the list of client-echo senders accepts the pattern `*`, which allows everybody; the two other lists demand a dot
    (`C37_extend_exact`);
  - a pool's shares and volumes are stored under its id cut to 32 bits (`C103_wide_pools`);
  - ref-farming's owner can create a seed whose id contains `#`; its farms run, but every call that takes the farm's id panics
    (`C104_farming_reads`);
  - a transfer to a client contract (echo) that is refused is not re-credited by the exchange.

## 6. Not modelled

* Serialization (borsh, serde) beyond storage keys, log and event text, gas amounts, JSON parsing of `msg`.
* Text in views: versions, names and symbols.
* Contract upgrade and state migration (`owner.rs` `migrate`); `migrate` only reads and returns the state. The stored account
  formats that `legacy.rs` describes are modelled (`Account.v`, C28).

## 7. Print Assumptions per theorem

<!-- assumptions -->
| file | theorem | axioms |
|---|---|---|
| PropAccess.v | `C29_calls_fail` | none (closed under the global context) |
| PropAccess.v | `C29_transfers_fail_partial` | none (closed under the global context) |
| PropAccess.v | `C29_untouched` | none (closed under the global context) |
| PropAccess.v | `C29_incoming` | none (closed under the global context) |
| PropAccess.v | `C29_reserves_history` | none (closed under the global context) |
| PropAccess.v | `C29_incoming_refuted` | none (closed under the global context) |
| PropAccess.v | `C30_paused_call_partial` | none (closed under the global context) |
| PropAccess.v | `C30_paused_transfer` | none (closed under the global context) |
| PropAccess.v | `C30_resume` | none (closed under the global context) |
| PropAccess.v | `C30_history` | none (closed under the global context) |
| PropAccess.v | `C30_sync_refuted` | none (closed under the global context) |
| PropAccess.v | `C31_privileged` | none (closed under the global context) |
| PropAccess.v | `C31_for_owner` | none (closed under the global context) |
| PropAccess.v | `C31_guardians` | none (closed under the global context) |
| PropAccess.v | `C31_guardians_history` | none (closed under the global context) |
| PropAccess.v | `C31_history` | none (closed under the global context) |
| PropAccess.v | `C54_deposits` | none (closed under the global context) |
| PropBoost.v | `C79_totals` | none (closed under the global context) |
| PropBoost.v | `C79_tokens` | none (closed under the global context) |
| PropBoost.v | `C79_counters` | none (closed under the global context) |
| PropBoost.v | `C79_near` | none (closed under the global context) |
| PropBoost.v | `C80_farm` | none (closed under the global context) |
| PropBoost.v | `C80_removed` | none (closed under the global context) |
| PropBoost.v | `C80_rewards` | none (closed under the global context) |
| PropBoost.v | `C80_payable` | none (closed under the global context) |
| PropBoost.v | `C80_claim` | none (closed under the global context) |
| PropBoost.v | `C80_once` | none (closed under the global context) |
| PropBoostFarm.v | `C81_free` | none (closed under the global context) |
| PropBoostFarm.v | `C81_lock` | none (closed under the global context) |
| PropBoostFarm.v | `C81_lock_free` | none (closed under the global context) |
| PropBoostFarm.v | `C81_unlock` | none (closed under the global context) |
| PropBoostFarm.v | `C81_else` | none (closed under the global context) |
| PropBoostFarm.v | `C81_own` | none (closed under the global context) |
| PropBoostFarm.v | `C81_rewards_kept` | none (closed under the global context) |
| PropBoostFarm.v | `C81_boost_bounds` | none (closed under the global context) |
| PropBoostFarm.v | `C81_boost_mono` | none (closed under the global context) |
| PropBoostFarm.v | `C81_lock_state` | none (closed under the global context) |
| PropBoostFarm.v | `C81_penalty` | none (closed under the global context) |
| PropBoostFarm.v | `C82_step` | none (closed under the global context) |
| PropBoostFarm.v | `C82_rate` | none (closed under the global context) |
| PropBoostFarm.v | `C82_gone` | none (closed under the global context) |
| PropBoostLimits.v | `C83_access` | none (closed under the global context) |
| PropBoostLimits.v | `C83_tokens` | none (closed under the global context) |
| PropBoostLimits.v | `C83_settings` | none (closed under the global context) |
| PropBoostLimits.v | `C83_settings_tokens` | none (closed under the global context) |
| PropBoostLimits.v | `C83_limits` | none (closed under the global context) |
| PropBoostLimits.v | `C83_terms` | none (closed under the global context) |
| PropBoostLimits.v | `C83_terms_tokens` | none (closed under the global context) |
| PropBoostLimits.v | `C83_new_farm` | none (closed under the global context) |
| PropBoostLimits.v | `C84_near` | none (closed under the global context) |
| PropBoostLimits.v | `C84_register` | none (closed under the global context) |
| PropBoostLimits.v | `C84_unregister` | none (closed under the global context) |
| PropBoostLimits.v | `C85_relock_refuted` | none (closed under the global context) |
| PropBoostLimits.v | `C85_expired` | none (closed under the global context) |
| PropBoostLimits.v | `C85_no_exit` | none (closed under the global context) |
| PropBoostLimits.v | `C85_forfeit_refuted` | none (closed under the global context) |
| PropBoostLimits.v | `C85_removed_by` | none (closed under the global context) |
| PropBoostLimits.v | `C85_daily_stuck` | none (closed under the global context) |
| PropBoostLimits.v | `C85_daily_refuted` | none (closed under the global context) |
| PropBoostLimits.v | `C85_late_refuted` | none (closed under the global context) |
| PropBoostLimits.v | `C85_slash_refuted` | none (closed under the global context) |
| PropBoostLimits.v | `C85_slash` | none (closed under the global context) |
| PropBoostLive.v | `C86_claim` | none (closed under the global context) |
| PropBoostLive.v | `C86_free` | none (closed under the global context) |
| PropBoostLive.v | `C86_lock_power` | none (closed under the global context) |
| PropBoostLive.v | `C86_lock` | none (closed under the global context) |
| PropBoostLive.v | `C86_lock_free` | none (closed under the global context) |
| PropBoostLive.v | `C86_unlock` | none (closed under the global context) |
| PropBoostViews.v | `C87_unclaimed` | none (closed under the global context) |
| PropBoostViews.v | `C87_farm` | none (closed under the global context) |
| PropBoostViews.v | `C87_storage` | none (closed under the global context) |
| PropCalls.v | `C10_actions_limits` | none (closed under the global context) |
| PropCalls.v | `C10_add_liquidity` | none (closed under the global context) |
| PropCalls.v | `C10_add_stable_liquidity` | none (closed under the global context) |
| PropCalls.v | `C10_remove_liquidity` | none (closed under the global context) |
| PropCalls.v | `C10_remove_by_tokens` | none (closed under the global context) |
| PropCalls.v | `C23_deposit` | none (closed under the global context) |
| PropCalls.v | `C27_unregister` | none (closed under the global context) |
| PropCalls.v | `C27_nothing_forfeited` | none (closed under the global context) |
| PropCalls.v | `C28_representation_irrelevant` | none (closed under the global context) |
| PropCalls.v | `C28_moved` | none (closed under the global context) |
| PropCalls.v | `C28_stored_versions` | none (closed under the global context) |
| PropCalls.v | `C35_donation_token` | none (closed under the global context) |
| PropCalls.v | `C35_donation_share` | none (closed under the global context) |
| PropCalm.v | `C108_value` | none (closed under the global context) |
| PropCalm.v | `C108_computed` | none (closed under the global context) |
| PropCalmWorld.v | `C108_exchange` | none (closed under the global context) |
| PropCap.v | `C89_value` | none (closed under the global context) |
| PropCap.v | `C89_add` | none (closed under the global context) |
| PropCap.v | `C89_zap` | none (closed under the global context) |
| PropCap.v | `C89_room` | none (closed under the global context) |
| PropCap.v | `C89_trade_refuted` | none (closed under the global context) |
| PropCap.v | `C89_stale_refuted` | none (closed under the global context) |
| PropChain.v | `C93_instant` | none (closed under the global context) |
| PropChain.v | `C93_virtual` | none (closed under the global context) |
| PropChain.v | `C93_own` | none (closed under the global context) |
| PropChain.v | `C93_zap` | none (closed under the global context) |
| PropChosen.v | `C95_rated_recorded` | none (closed under the global context) |
| PropChosen.v | `C95_unrecorded` | none (closed under the global context) |
| PropChosen.v | `C95_trade` | none (closed under the global context) |
| PropChosen.v | `C95_add` | none (closed under the global context) |
| PropChosen.v | `C95_remove` | none (closed under the global context) |
| PropChosen.v | `C95_detail` | none (closed under the global context) |
| PropChosen.v | `C95_expired_refuted` | none (closed under the global context) |
| PropEcho.v | `C37_client_echo_exact` | none (closed under the global context) |
| PropEcho.v | `C37_extend_exact` | none (closed under the global context) |
| PropEcho.v | `C37_remove_exact` | none (closed under the global context) |
| PropEcho.v | `C37_whitelisted_token_exact` | none (closed under the global context) |
| PropExact.v | `C59_computed_not_below_exact` | none (closed under the global context) |
| PropExact.v | `C60_trade_keeps_exact_invariant_partial` | none (closed under the global context) |
| PropExact.v | `C60_trades_keep_exact_invariant_partial` | none (closed under the global context) |
| PropExact.v | `C60_zero_fee_refuted` | none (closed under the global context) |
| PropExact.v | `C60_round_trip_refuted` | none (closed under the global context) |
| PropExact.v | `C61_removal_keeps_invariant_per_share` | none (closed under the global context) |
| PropExact.v | `C20_deposit_shares_exact` | none (closed under the global context) |
| PropExact.v | `C20_withdraw_shares_exact` | none (closed under the global context) |
| PropExit.v | `C64_withdraw` | none (closed under the global context) |
| PropExit.v | `C64_withdraw_whole` | none (closed under the global context) |
| PropExit.v | `C64_claim` | none (closed under the global context) |
| PropExit.v | `C65_redeem` | none (closed under the global context) |
| PropExit.v | `C65_redeem_simple` | none (closed under the global context) |
| PropExit.v | `C65_floor` | none (closed under the global context) |
| PropExit.v | `C65_exit` | none (closed under the global context) |
| PropExit.v | `C65_sole_holder_refuted` | none (closed under the global context) |
| PropExit.v | `C64_old_entry_refuted` | none (closed under the global context) |
| PropFarmIds.v | `C104_farms_apart` | none (closed under the global context) |
| PropFarmIds.v | `C104_boost_reads` | none (closed under the global context) |
| PropFarmIds.v | `C104_farming_reads` | none (closed under the global context) |
| PropFarmIds.v | `C104_names_one` | none (closed under the global context) |
| PropFarmIds.v | `C104_seeds_apart` | none (closed under the global context) |
| PropFarmIds.v | `C104_seeds_return` | none (closed under the global context) |
| PropFarmIds.v | `C104_new_type` | none (closed under the global context) |
| PropFarmIds.v | `C104_boost_seeds_apart` | none (closed under the global context) |
| PropFarmLive.v | `C48_withdrawable` | none (closed under the global context) |
| PropFarmLive.v | `C76_claim` | none (closed under the global context) |
| PropFarmLive.v | `C76_stake` | none (closed under the global context) |
| PropFarmLive.v | `C76_no_interval_locks` | none (closed under the global context) |
| PropFarmLive.v | `C76_sane_terms_refuted` | none (closed under the global context) |
| PropFarmLive.v | `C76_ready_refuted` | none (closed under the global context) |
| PropFarmNear.v | `C72_call` | none (closed under the global context) |
| PropFarmNear.v | `C72_only_own` | none (closed under the global context) |
| PropFarmNear.v | `C72_backed` | none (closed under the global context) |
| PropFarmNear.v | `C72_affordable` | none (closed under the global context) |
| PropFarmNear.v | `C72_withdrawable` | none (closed under the global context) |
| PropFarmNear.v | `C73_farmers` | none (closed under the global context) |
| PropFarmNear.v | `C72_leave` | none (closed under the global context) |
| PropFarmNear.v | `C73_rewards` | none (closed under the global context) |
| PropFarmNear.v | `C74_covered` | none (closed under the global context) |
| PropFarmNear.v | `C74_uncovered` | none (closed under the global context) |
| PropFarmNear.v | `C74_always_covered_refuted` | none (closed under the global context) |
| PropFarmNear.v | `C75_displayed` | none (closed under the global context) |
| PropFarmNear.v | `C75_adds_up` | none (closed under the global context) |
| PropFarmNear.v | `C75_unclaimed_refuted` | none (closed under the global context) |
| PropFarmToken.v | `C100_refines` | none (closed under the global context) |
| PropFarmToken.v | `C100_solvent` | none (closed under the global context) |
| PropFarmToken.v | `C100_pays` | none (closed under the global context) |
| PropFarmToken.v | `C100_returned` | none (closed under the global context) |
| PropFarmToken.v | `C100_kept` | none (closed under the global context) |
| PropFarmToken.v | `C100_reward` | none (closed under the global context) |
| PropFarming.v | `C42_farm_conservation` | none (closed under the global context) |
| PropFarming.v | `C43_claims_covered` | none (closed under the global context) |
| PropFarming.v | `C43_claim_never_short` | none (closed under the global context) |
| PropFarming.v | `C44_seed_accounting` | none (closed under the global context) |
| PropFarming.v | `C45_rewards_solvent` | none (closed under the global context) |
| PropFarming.v | `C45_transfer_never_short` | none (closed under the global context) |
| PropFarming.v | `C46_emission_bounded` | none (closed under the global context) |
| PropFarming.v | `C47_pro_rata` | none (closed under the global context) |
| PropFarming.v | `C47_splitting_never_pays` | none (closed under the global context) |
| PropFarming.v | `C48_stake_withdrawable_refuted` | none (closed under the global context) |
| PropFarming.v | `C48_withdrawable_after_claim_partial` | none (closed under the global context) |
| PropFarming.v | `C49_reward_restored_partial` | none (closed under the global context) |
| PropFarming.v | `C49_seed_restored_partial` | none (closed under the global context) |
| PropFarming.v | `C49_restored_in_all_interleavings_refuted` | none (closed under the global context) |
| PropFarming.v | `C50_lifecycle` | none (closed under the global context) |
| PropFarming.v | `C50_ended_accepts_no_reward` | none (closed under the global context) |
| PropFarming.v | `C50_ids_fresh` | none (closed under the global context) |
| PropFarming.v | `C51_displayed_is_claimed` | none (closed under the global context) |
| PropFarming.v | `C52_paused_user_calls_fail` | none (closed under the global context) |
| PropFarming.v | `C52_paused_transfers_fail` | none (closed under the global context) |
| PropFarming.v | `C52_owner_only` | none (closed under the global context) |
| PropFarming.v | `C52_only_owner_changes_state` | none (closed under the global context) |
| PropFarming.v | `C53_only_own_withdrawals` | none (closed under the global context) |
| PropHistory.v | `C26_call` | none (closed under the global context) |
| PropHistory.v | `C26_deposit` | none (closed under the global context) |
| PropHistory.v | `C26_history` | none (closed under the global context) |
| PropHistory.v | `C26_owner_refuted` | none (closed under the global context) |
| PropHistory.v | `C38_permanent` | none (closed under the global context) |
| PropHistory.v | `C38_consecutive` | none (closed under the global context) |
| PropHistory.v | `C39_step` | none (closed under the global context) |
| PropHistory.v | `C39_monotone` | none (closed under the global context) |
| PropIds.v | `C62_share_id` | none (closed under the global context) |
| PropIds.v | `C62_shadow_id` | none (closed under the global context) |
| PropIds.v | `C62_ids_distinct` | none (closed under the global context) |
| PropIds.v | `C62_ids_read` | none (closed under the global context) |
| PropIds.v | `C62_id_unique_refuted` | none (closed under the global context) |
| PropKeys.v | `C103_exchange` | none (closed under the global context) |
| PropKeys.v | `C103_exchange_apart` | none (closed under the global context) |
| PropKeys.v | `C103_farming` | none (closed under the global context) |
| PropKeys.v | `C103_boost` | none (closed under the global context) |
| PropKeys.v | `C103_wide_pools` | none (closed under the global context) |
| PropLiquidity.v | `C92_add` | none (closed under the global context) |
| PropLiquidity.v | `C92_add_stable` | none (closed under the global context) |
| PropLiquidity.v | `C92_remove_by_tokens` | none (closed under the global context) |
| PropListed.v | `C101_reasons` | none (closed under the global context) |
| PropListed.v | `C101_holder_decides_refuted` | none (closed under the global context) |
| PropLockup.v | `C105_refines` | none (closed under the global context) |
| PropLockup.v | `C105_backed` | none (closed under the global context) |
| PropLockup.v | `C105_ids` | none (closed under the global context) |
| PropLockup.v | `C105_accepted` | none (closed under the global context) |
| PropLockup.v | `C105_kept` | none (closed under the global context) |
| PropLockup.v | `C105_returned` | none (closed under the global context) |
| PropLockup.v | `C105_stays` | none (closed under the global context) |
| PropNear.v | `C70_call` | none (closed under the global context) |
| PropNear.v | `C70_kept` | none (closed under the global context) |
| PropNear.v | `C70_transfer` | none (closed under the global context) |
| PropNear.v | `C70_shadow_callback` | none (closed under the global context) |
| PropNear.v | `C70_swap_refuted` | none (closed under the global context) |
| PropNear.v | `C71_backed` | none (closed under the global context) |
| PropNear.v | `C71_race_refuted` | none (closed under the global context) |
| PropOracles.v | `C110_refines` | none (closed under the global context) |
| PropOracles.v | `C110_degen_source` | none (closed under the global context) |
| PropOracles.v | `C110_degen_steady` | none (closed under the global context) |
| PropOracles.v | `C110_rate_source` | none (closed under the global context) |
| PropOracles.v | `C110_refresh_price` | none (closed under the global context) |
| PropOracles.v | `C110_refresh_pyth` | none (closed under the global context) |
| PropOracles.v | `C110_replaced_feed_refuted` | none (closed under the global context) |
| PropOwn.v | `C58_shares` | none (closed under the global context) |
| PropPages.v | `C94_lists` | none (closed under the global context) |
| PropPages.v | `C94_average` | none (closed under the global context) |
| PropPages.v | `C95_kind` | none (closed under the global context) |
| PropPaid.v | `C102_calls` | none (closed under the global context) |
| PropPaid.v | `C102_messages` | none (closed under the global context) |
| PropPaths.v | `C107_refines` | none (closed under the global context) |
| PropPaths.v | `C107_untouched` | none (closed under the global context) |
| PropPaths.v | `C107_value` | none (closed under the global context) |
| PropPaths.v | `C107_trades` | none (closed under the global context) |
| PropPrecise.v | `C66_computed_exact` | none (closed under the global context) |
| PropPrecise.v | `C66_uneven_refuted` | none (closed under the global context) |
| PropPrecise.v | `C67_trade_pays_exact` | none (closed under the global context) |
| PropPrecise.v | `C67_even_pool` | none (closed under the global context) |
| PropPrice.v | `C90_price` | none (closed under the global context) |
| PropPrice.v | `C90_rated_price` | none (closed under the global context) |
| PropPrice.v | `C90_not_below_exact` | none (closed under the global context) |
| PropPrice.v | `C90_rated_not_below_exact` | none (closed under the global context) |
| PropPrice.v | `C90_redemption_pays` | none (closed under the global context) |
| PropPrice.v | `C90_redemption_keeps_price` | none (closed under the global context) |
| PropPrice.v | `C90_trades_refuted` | none (closed under the global context) |
| PropRateViews.v | `C106_rated` | none (closed under the global context) |
| PropRateViews.v | `C106_rated_shown` | none (closed under the global context) |
| PropRateViews.v | `C106_rated_used` | none (closed under the global context) |
| PropRateViews.v | `C106_rated_valid` | none (closed under the global context) |
| PropRateViews.v | `C106_rated_refused` | none (closed under the global context) |
| PropRateViews.v | `C106_degen` | none (closed under the global context) |
| PropRateViews.v | `C106_degen_none_shown` | none (closed under the global context) |
| PropRateViews.v | `C106_degen_chosen` | none (closed under the global context) |
| PropRateViews.v | `C106_degen_used` | none (closed under the global context) |
| PropRateViews.v | `C106_degen_valid` | none (closed under the global context) |
| PropRateViews.v | `C106_degen_refused` | none (closed under the global context) |
| PropRateViews.v | `C106_value` | none (closed under the global context) |
| PropRateViews.v | `C106_shadow` | none (closed under the global context) |
| PropRateViews.v | `C106_limit` | none (closed under the global context) |
| PropRateViews.v | `C106_batch` | none (closed under the global context) |
| PropRateWorld.v | `C21_exchange_history` | none (closed under the global context) |
| PropRateWorld.v | `C21_exchange_rate` | none (closed under the global context) |
| PropRateWorld.v | `C21_exchange_degen` | none (closed under the global context) |
| PropRateWorld.v | `C21_exchange_swap` | none (closed under the global context) |
| PropRates.v | `C21_swap_prices_recent` | none (closed under the global context) |
| PropRates.v | `C21_remove_tokens_prices_recent` | none (closed under the global context) |
| PropRates.v | `C21_first_deposit_prices_recent_partial` | none (closed under the global context) |
| PropRates.v | `C21_stored_rate_has_source` | none (closed under the global context) |
| PropRates.v | `C21_stored_degen_price_has_source` | none (closed under the global context) |
| PropRecords.v | `C63_step` | none (closed under the global context) |
| PropRecords.v | `C63_history` | none (closed under the global context) |
| PropRecords.v | `C63_deployed` | none (closed under the global context) |
| PropRecords.v | `C63_observed_first_partial` | none (closed under the global context) |
| PropRecords.v | `C63_instant_swaps_observe` | none (closed under the global context) |
| PropRecords.v | `C63_zap_unobserved_refuted` | none (closed under the global context) |
| PropSettings.v | `C69_settings` | none (closed under the global context) |
| PropSettings.v | `C69_oracles` | none (closed under the global context) |
| PropSettings.v | `C69_pools` | none (closed under the global context) |
| PropSettings.v | `C68_protocol_fee` | none (closed under the global context) |
| PropSettings.v | `C68_pool_fees` | none (closed under the global context) |
| PropSettings.v | `C68_deployed_refuted` | none (closed under the global context) |
| PropSettingsShown.v | `C109_stop` | none (closed under the global context) |
| PropSettingsShown.v | `C109_frozen` | none (closed under the global context) |
| PropSettingsShown.v | `C109_own` | none (closed under the global context) |
| PropSettingsShown.v | `C109_traded` | none (closed under the global context) |
| PropSettingsShown.v | `C109_map_page` | none (closed under the global context) |
| PropSettingsShown.v | `C109_fees` | none (closed under the global context) |
| PropSettingsShown.v | `C109_shares` | none (closed under the global context) |
| PropSettingsShown.v | `C109_worth` | none (closed under the global context) |
| PropShadow.v | `C88_books_agree` | none (closed under the global context) |
| PropShadow.v | `C88_settled` | none (closed under the global context) |
| PropShadow.v | `C88_never_overcounted` | none (closed under the global context) |
| PropShadow.v | `C88_report` | none (closed under the global context) |
| PropShadow.v | `C88_excess_kept` | none (closed under the global context) |
| PropShadow.v | `C88_liquidation_locks_refuted` | none (closed under the global context) |
| PropShadow.v | `C88_liquidation_overcount_refuted` | none (closed under the global context) |
| PropShares.v | `C32_transfer` | none (closed under the global context) |
| PropShares.v | `C32_transfer_call` | none (closed under the global context) |
| PropShares.v | `C32_resolve` | none (closed under the global context) |
| PropShares.v | `C32_total` | none (closed under the global context) |
| PropShares.v | `C33_locked_partial` | none (closed under the global context) |
| PropShares.v | `C33_deployed` | none (closed under the global context) |
| PropShares.v | `C33_calls` | none (closed under the global context) |
| PropShares.v | `C33_donation_refuted` | none (closed under the global context) |
| PropShares.v | `C34_liquidation` | none (closed under the global context) |
| PropShown.v | `C94_page` | none (closed under the global context) |
| PropShown.v | `C94_pages` | none (closed under the global context) |
| PropShown.v | `C94_page_shown` | none (closed under the global context) |
| PropShown.v | `C94_pool` | none (closed under the global context) |
| PropShown.v | `C94_unpriced` | none (closed under the global context) |
| PropShown.v | `C94_terms` | none (closed under the global context) |
| PropShown.v | `C94_backed` | none (closed under the global context) |
| PropShown.v | `C94_tokens` | none (closed under the global context) |
| PropShown.v | `C94_tokens_refuted` | none (closed under the global context) |
| PropShown.v | `C94_storage` | none (closed under the global context) |
| PropShown.v | `C94_usage` | none (closed under the global context) |
| PropShown.v | `C94_leave` | none (closed under the global context) |
| PropShown.v | `C94_assets` | none (closed under the global context) |
| PropSimple.v | `C02_simple_supply_is_sum` | none (closed under the global context) |
| PropSimple.v | `C03_swap_never_drains` | none (closed under the global context) |
| PropSimple.v | `C03_swap_by_output_never_drains` | none (closed under the global context) |
| PropSimple.v | `C03_reserves_positive_iff_shares` | none (closed under the global context) |
| PropSimple.v | `C04_swap_product` | none (closed under the global context) |
| PropSimple.v | `C04_swap_by_output_product` | none (closed under the global context) |
| PropSimple.v | `C04_trade_never_rejected` | none (closed under the global context) |
| PropSimple.v | `C05_no_profit` | none (closed under the global context) |
| PropSimple.v | `C05_round_trip` | none (closed under the global context) |
| PropSimple.v | `C06_charge_is_sufficient` | none (closed under the global context) |
| PropSimple.v | `C06_charge_is_tight` | none (closed under the global context) |
| PropSimple.v | `C07_add_then_remove` | none (closed under the global context) |
| PropSimple.v | `C07_takes_at_most_offered` | none (closed under the global context) |
| PropSimple.v | `C07_no_dilution` | none (closed under the global context) |
| PropSimple.v | `C08_swap_share_value` | none (closed under the global context) |
| PropSimple.v | `C08_swap_by_output_share_value` | none (closed under the global context) |
| PropSimple.v | `C09_redemption_pro_rata` | none (closed under the global context) |
| PropSimple.v | `C09_last_holder_takes_all` | none (closed under the global context) |
| PropSimple.v | `C10_swap_min_out` | none (closed under the global context) |
| PropSimple.v | `C10_swap_by_output_max_in` | none (closed under the global context) |
| PropSimple.v | `C10_remove_min_amounts` | none (closed under the global context) |
| PropSimple.v | `C11_integer_sqrt_exact` | none (closed under the global context) |
| PropSimple.v | `C11_integer_sqrt_sound` | none (closed under the global context) |
| PropSimple.v | `C11_loop_terminates` | none (closed under the global context) |
| PropSimple.v | `C12_fee_split` | none (closed under the global context) |
| PropSimple.v | `C12_fee_split_by_output` | none (closed under the global context) |
| PropSimple.v | `C13_quote_equals_execution` | none (closed under the global context) |
| PropSimple.v | `C13_quote_by_output_equals_execution` | none (closed under the global context) |
| PropStable.v | `C02_stable_supply_is_sum` | none (closed under the global context) |
| PropStable.v | `C10_stable_swap_min_out` | none (closed under the global context) |
| PropStable.v | `C10_stable_add_min_shares` | none (closed under the global context) |
| PropStable.v | `C10_stable_remove_min_amounts` | none (closed under the global context) |
| PropStable.v | `C10_stable_remove_tokens_max_burn` | none (closed under the global context) |
| PropStable.v | `C13_stable_quote_equals_execution` | none (closed under the global context) |
| PropStable.v | `C13_stable_execution_is_quoted` | none (closed under the global context) |
| PropStable.v | `C13_stable_add_is_predicted` | none (closed under the global context) |
| PropStable.v | `C13_stable_remove_tokens_is_predicted` | none (closed under the global context) |
| PropStable.v | `C13_stable_remove_shares_is_predicted` | none (closed under the global context) |
| PropStable.v | `C16_add_conserves` | none (closed under the global context) |
| PropStable.v | `C16_remove_shares_conserves` | none (closed under the global context) |
| PropStable.v | `C16_remove_tokens_rounding` | none (closed under the global context) |
| PropStable.v | `C16_remove_tokens_conserves_partial` | none (closed under the global context) |
| PropStable.v | `C16_remove_tokens_conserves_refuted` | none (closed under the global context) |
| PropStable.v | `C16_swap_conserves` | none (closed under the global context) |
| PropStable.v | `C17_swap_not_past_curve` | none (closed under the global context) |
| PropStable.v | `C17_stable_reserves_above_curve` | none (closed under the global context) |
| PropStable.v | `C18_remove_shares_min_reserve` | none (closed under the global context) |
| PropStable.v | `C18_remove_tokens_min_reserve` | none (closed under the global context) |
| PropStable.v | `C18_swap_min_reserve` | none (closed under the global context) |
| PropStable.v | `C19_amp_bounded` | none (closed under the global context) |
| PropStable.v | `C19_amp_is_used` | none (closed under the global context) |
| PropStable.v | `C19_amp_monotone` | none (closed under the global context) |
| PropStable.v | `C19_amp_target_after_stop` | none (closed under the global context) |
| PropStable.v | `C19_ramp` | none (closed under the global context) |
| PropStable.v | `C19_stop_freezes` | none (closed under the global context) |
| PropStable.v | `C19_only_ramps_change_amp` | none (closed under the global context) |
| PropStable.v | `C19_ramps_a_day_apart` | none (closed under the global context) |
| PropStable.v | `C20_deposit_shares_bounded` | none (closed under the global context) |
| PropStable.v | `C20_first_deposit` | none (closed under the global context) |
| PropStable.v | `C20_withdraw_shares_bounded` | none (closed under the global context) |
| PropStable.v | `C20_swap_admin_shares_bounded` | none (closed under the global context) |
| PropStable.v | `C21_swap_needs_fresh_rates` | none (closed under the global context) |
| PropStable.v | `C21_remove_tokens_needs_fresh_rates` | none (closed under the global context) |
| PropStable.v | `C21_first_deposit_needs_fresh_rates_partial` | none (closed under the global context) |
| PropStable.v | `C21_deposit_needs_fresh_rates_refuted` | none (closed under the global context) |
| PropStable.v | `C22_rated_swap_conserves` | none (closed under the global context) |
| PropStake.v | `C98_refines` | none (closed under the global context) |
| PropStake.v | `C98_backed` | none (closed under the global context) |
| PropStake.v | `C98_one_seed` | none (closed under the global context) |
| PropStake.v | `C98_paid` | none (closed under the global context) |
| PropStake.v | `C98_pays` | none (closed under the global context) |
| PropStake.v | `C98_accepted` | none (closed under the global context) |
| PropStake.v | `C98_kept` | none (closed under the global context) |
| PropStake.v | `C98_returned` | none (closed under the global context) |
| PropSwap.v | `C14_execute_actions` | none (closed under the global context) |
| PropSwap.v | `C14_conserved` | none (closed under the global context) |
| PropSwap.v | `C14_swap` | none (closed under the global context) |
| PropSwap.v | `C14_in_va` | none (closed under the global context) |
| PropSwap.v | `C15_output_swaps_paid` | none (closed under the global context) |
| PropSwap.v | `C40_instant_swap` | none (closed under the global context) |
| PropSwap.v | `C40_deposits_not_read` | none (closed under the global context) |
| PropSwap.v | `C40_failure_returns` | none (closed under the global context) |
| PropSwap.v | `C41_hot_zap` | none (closed under the global context) |
| PropToken.v | `C96_backed` | none (closed under the global context) |
| PropToken.v | `C96_surplus` | none (closed under the global context) |
| PropToken.v | `C96_unwrap` | none (closed under the global context) |
| PropToken.v | `C96_wrap` | none (closed under the global context) |
| PropToken.v | `C96_own` | none (closed under the global context) |
| PropToken.v | `C96_transfer` | none (closed under the global context) |
| PropToken.v | `C96_answer` | none (closed under the global context) |
| PropToken.v | `C96_leave` | none (closed under the global context) |
| PropToken.v | `C96_storage` | none (closed under the global context) |
| PropToken.v | `C97_refines` | none (closed under the global context) |
| PropToken.v | `C97_solvent` | none (closed under the global context) |
| PropToken.v | `C97_returned` | none (closed under the global context) |
| PropToken.v | `C97_pays` | none (closed under the global context) |
| PropToken.v | `C97_unwraps` | none (closed under the global context) |
| PropToken.v | `C97_answered` | none (closed under the global context) |
| PropToken.v | `C97_arrives` | none (closed under the global context) |
| PropTrade.v | `C77_split_sale` | none (closed under the global context) |
| PropTrade.v | `C77_split_purchase` | none (closed under the global context) |
| PropTrade.v | `C78_larger_sale` | none (closed under the global context) |
| PropTrade.v | `C78_larger_purchase` | none (closed under the global context) |
| PropTrade.v | `C78_price_of_size` | none (closed under the global context) |
| PropTrade.v | `C78_after_others` | none (closed under the global context) |
| PropTrade.v | `C78_after_opposite` | none (closed under the global context) |
| PropTradeLive.v | `C91_counters` | none (closed under the global context) |
| PropTradeLive.v | `C91_swap` | none (closed under the global context) |
| PropTradeLive.v | `C91_swap_by_output` | none (closed under the global context) |
| PropTwap.v | `C36_history_bounded` | none (closed under the global context) |
| PropTwap.v | `C36_records_spaced` | none (closed under the global context) |
| PropTwap.v | `C36_average_exact` | none (closed under the global context) |
| PropTwap.v | `C36_average_between` | none (closed under the global context) |
| PropTwap.v | `C36_view_full` | none (closed under the global context) |
| PropUnstake.v | `C99_exit` | none (closed under the global context) |
| PropViews.v | `C55_virtual_account` | none (closed under the global context) |
| PropViews.v | `C55_own_deposits` | none (closed under the global context) |
| PropViews.v | `C55_instant_swap` | none (closed under the global context) |
| PropViews.v | `C55_omitted_amount_unpredicted` | none (closed under the global context) |
| PropViews.v | `C55_used_up_not_shown` | none (closed under the global context) |
| PropViews.v | `C56_used_up_not_shown` | none (closed under the global context) |
| PropViews.v | `C56_hot_zap` | none (closed under the global context) |
| PropViews.v | `C57_get_return` | none (closed under the global context) |
| PropViews.v | `C57_get_return_by_output` | none (closed under the global context) |
| PropViews.v | `C57_add_simple` | none (closed under the global context) |
| PropViews.v | `C57_add_stable` | none (closed under the global context) |
| PropViews.v | `C57_remove` | none (closed under the global context) |
| PropViews.v | `C57_remove_by_tokens` | none (closed under the global context) |
| PropViews.v | `C57_balances` | none (closed under the global context) |
| PropWorld.v | `C01_solvent_rounding` | none (closed under the global context) |
| PropWorld.v | `C01_rounding_small` | none (closed under the global context) |
| PropWorld.v | `C01_rounding_exists` | none (closed under the global context) |
| PropWorld.v | `C01_decimals_refuted` | none (closed under the global context) |
| PropWorld.v | `C01_solvent_partial` | none (closed under the global context) |
| PropWorld.v | `C01_deployed_starts` | none (closed under the global context) |
| PropWorld.v | `C01_careless_owner_refuted` | none (closed under the global context) |
| PropWorld.v | `C24_failure_recredits` | none (closed under the global context) |
| PropWorld.v | `C24_success_credits_nothing` | none (closed under the global context) |
| PropWorld.v | `C24_callback_at_most_once` | none (closed under the global context) |
| PropWorld.v | `C24_withdraw_schedules` | none (closed under the global context) |
| PropWorld.v | `C25_claim` | none (closed under the global context) |
| PropWorld.v | `C25_entries_change_only_by_claims_and_failures` | none (closed under the global context) |
| PropWorld.v | `C25_paid_exactly_once` | none (closed under the global context) |
<!-- /assumptions -->
