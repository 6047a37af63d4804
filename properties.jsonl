{"id": "C01", "title": "Exchange solvency", "statement": "For every fungible token, the balance the exchange holds on that (standard-conforming) token contract is at all times at least the sum of all user deposits shown by get_deposits, all pool reserves shown by get_pool, all lost-and-found entries and all outgoing transfers still in flight. (Exception investigated separately: stable pools listing a token with more than 18 decimals.)", "quantifier": "every token, every reachable state after any finite history of API calls, incoming token transfers and out-of-order promise outcomes", "why_tests_cant": "A shortfall may need a long interleaving of swaps, failed withdrawals and callbacks with particular rounding; no finite suite covers all histories.", "anchors": ["ref-exchange/src/lib.rs: execute_actions, swap, add_liquidity, remove_liquidity", "ref-exchange/src/account_deposit.rs: withdraw, exchange_callback_post_withdraw", "ref-exchange/src/token_receiver.rs: ft_on_transfer", "ref-exchange/src/donation.rs", "ref-exchange/src/owner.rs: withdraw_owner_token, remove_exchange_fee_liquidity"]}
{"id": "C02", "title": "LP share supply accounting", "statement": "In every pool the total share supply reported by get_pool_total_shares equals the sum over all accounts of get_pool_shares.", "quantifier": "every pool of every kind, every reachable state", "why_tests_cant": "Must hold after every history of mint, burn, fee mint, referral mint, transfer, donation and liquidation.", "anchors": ["ref-exchange/src/simple_pool.rs: mint_shares, remove_liquidity, share_transfer", "ref-exchange/src/stable_swap/mod.rs: mint_shares, burn_shares", "ref-exchange/src/multi_fungible_token.rs", "ref-exchange/src/donation.rs", "ref-exchange/src/shadow_actions.rs"]}
{"id": "C03", "title": "A simple-pool trade can never drain a reserve", "statement": "Whenever a simple pool swap (exact-in or exact-out) succeeds, the amount paid out is strictly less than the pool's reserve of that token and both reserves stay strictly positive; a simple pool has positive reserves of both tokens exactly when it has LP shares outstanding.", "quantifier": "every simple pool, fee, reserves and trade size; every reachable state", "why_tests_cant": "Ranges over 128-bit reserves, all trade sizes and all histories.", "anchors": ["ref-exchange/src/simple_pool.rs: internal_get_return, internal_get_return_by_output, swap, swap_by_output"]}
{"id": "C04", "title": "Constant product never decreases", "statement": "After a successful simple pool swap, in either direction and either exact-in or exact-out form, the product of the two reserves is at least what it was before; hence the contract's own invariant check never rejects a trade.", "quantifier": "every simple pool state with positive reserves, every fee below 100%, every trade", "why_tests_cant": "Rounding over all 128-bit triples; a single off-by-one rounding in the trader's favour would be exploitable by repetition.", "anchors": ["ref-exchange/src/simple_pool.rs: swap, swap_by_output, update_pool_and_distribute_fee"]}
{"id": "C05", "title": "No profit from round trips", "statement": "Trading token A for B and immediately trading all of the received B back to A in the same simple pool never returns more A than was spent; this holds for any sequence of back-and-forth trades by one trader when nobody else trades.", "quantifier": "every pool state, every amount, every finite sequence of trades", "why_tests_cant": "Requires all amounts and all sequence lengths.", "anchors": ["ref-exchange/src/simple_pool.rs: swap"]}
{"id": "C06", "title": "Exact-output price is sufficient and minimal", "statement": "The input charged by swap_by_output for a desired output is always enough: an exact-input swap of that amount in the same state returns at least the desired output; and it is tight: no input more than a small constant (set by the fee granularity) below the charge would have been enough.", "quantifier": "every simple pool state and every desired output below the reserve", "why_tests_cant": "Rounding claim over all 128-bit inputs.", "anchors": ["ref-exchange/src/simple_pool.rs: internal_get_return, internal_get_return_by_output"]}
{"id": "C07", "title": "Adding then removing liquidity is never profitable", "statement": "Adding liquidity to a simple pool and immediately removing exactly the shares received returns at most the amounts deposited, for each token separately; adding never dilutes existing holders: each existing holder could redeem at least as much of each token as before.", "quantifier": "every simple pool state with liquidity and every offered pair of amounts", "why_tests_cant": "Rounding claim over all 128-bit inputs.", "anchors": ["ref-exchange/src/simple_pool.rs: add_liquidity, remove_liquidity"]}
{"id": "C08", "title": "Share value does not fall through trading", "statement": "A swap on a simple pool, including the shares minted to the exchange and the referrer as fee, never lowers the pool's integer-square-root invariant per share, provided the configured protocol fee is at most 100%.", "quantifier": "every simple pool state, fee setting, referral setting and trade", "why_tests_cant": "Rounding and dilution claim over all inputs.", "anchors": ["ref-exchange/src/simple_pool.rs: update_pool_and_distribute_fee", "ref-exchange/src/admin_fee.rs: calc_referral_share"]}
{"id": "C09", "title": "Redemption is pro rata", "statement": "Removing s of S shares from a simple pool pays floor(reserve*s/S) of each token, lowers both the holder's shares and the supply by exactly s, and a holder of all shares receives the entire reserves, leaving the pool empty.", "quantifier": "every pool, holder and share count", "why_tests_cant": "Every state; in particular exactness at the last-holder boundary.", "anchors": ["ref-exchange/src/simple_pool.rs: remove_liquidity", "ref-exchange/src/lib.rs: remove_liquidity"]}
{"id": "C10", "title": "Slippage limits are honoured", "statement": "Any successful call respects the user's limit: a swap returns at least min_amount_out, an exact-output swap charges at most max_amount_in, add_liquidity takes at most the offered amounts and at least min_amounts, stable adds mint at least min_shares, remove_liquidity pays at least min_amounts, and withdrawals by token burn at most max_burn_shares.", "quantifier": "every pool kind, state and argument", "why_tests_cant": "The guard must hold on every success path.", "anchors": ["ref-exchange/src/simple_pool.rs", "ref-exchange/src/stable_swap/mod.rs", "ref-exchange/src/rated_swap/mod.rs", "ref-exchange/src/lib.rs: add_liquidity"]}
{"id": "C11", "title": "Integer square root is exact", "statement": "The square root used for pool invariants returns the floor of the real square root for every 256-bit product of two reserves and always terminates.", "quantifier": "every value below 2^256-1", "why_tests_cant": "2^256 inputs.", "anchors": ["ref-exchange/src/utils.rs: integer_sqrt"]}
{"id": "C12", "title": "Protocol fee split", "statement": "Shares minted for a fee are divided between exchange and referrer without loss: the two parts add up exactly to the fee shares, the referrer receives at most its configured fraction, and receives nothing unless it is a registered LP of that pool.", "quantifier": "every pool, fee and referral configuration, every trade", "why_tests_cant": "All configurations and amounts.", "anchors": ["ref-exchange/src/simple_pool.rs: update_pool_and_distribute_fee", "ref-exchange/src/admin_fee.rs", "ref-exchange/src/stable_swap/mod.rs: distribute_admin_fee"]}
{"id": "C13", "title": "Quotes equal executions", "statement": "get_return and get_return_by_output return exactly the amount the corresponding swap executed in the same state would produce, whatever the referral, and change nothing.", "quantifier": "every pool, state and amount", "why_tests_cant": "All states; the executed path and the view path are different code.", "anchors": ["ref-exchange/src/views.rs: get_return, get_return_by_output", "ref-exchange/src/pool.rs: swap", "ref-exchange/src/lib.rs: internal_pool_swap_by_cache"]}
{"id": "C14", "title": "Multi-hop swaps conserve tokens", "statement": "For every token, a successful execute_actions/swap changes the caller's deposit plus all pool reserves by zero in total (never increasing it), touches no other user's deposits, and a failed one changes nothing.", "quantifier": "every list of actions of any length over any pools, every state", "why_tests_cant": "Unbounded action lists and pool graphs.", "anchors": ["ref-exchange/src/lib.rs: execute_actions, internal_execute_actions, internal_execute_action, internal_pool_swap"]}
{"id": "C15", "title": "Exact-output chains are fully paid for", "statement": "swap_by_output, for any number of chained or independent hops, credits the requested outputs and debits exactly the computed inputs in the same call; it cannot succeed leaving the caller with output that was not paid for.", "quantifier": "every list of exact-output actions of any length", "why_tests_cant": "The output is credited before the input is debited, so all list shapes matter.", "anchors": ["ref-exchange/src/lib.rs: internal_execute_actions, finalize_prev_swap_chain, internal_pool_swap_by_output"]}
{"id": "C16", "title": "Stable pools conserve tokens in raw units", "statement": "For a stable pool every successful add, remove, or swap changes the reserve reported by get_pool plus what was paid out to the user, in raw token units, by at most what the user paid in.", "quantifier": "every stable pool, decimals configuration, state and argument", "why_tests_cant": "Decimal conversions round; all amounts and decimals matter.", "anchors": ["ref-exchange/src/stable_swap/mod.rs: amounts_to_c_amounts, c_amount_to_amount, remove_liquidity_by_tokens", "ref-exchange/src/lib.rs: remove_liquidity_by_tokens"]}
{"id": "C17", "title": "Stable swap never pays past the curve", "statement": "The reserve left in a stable pool after paying the gross output lies on or above the StableSwap curve computed by the contract: the quadratic the contract solves is non-negative at the new reserve.", "quantifier": "every reserve vector, amplification, trade size and however many solver iterations were used", "why_tests_cant": "The solver stops after an iteration limit; correctness must not depend on convergence for particular numbers.", "anchors": ["ref-exchange/src/stable_swap/math.rs: compute_y, swap_to"]}
{"id": "C18", "title": "Stable pool minimum reserve", "statement": "After any successful removal of liquidity the pool keeps at least the minimum reserve of every token, and after any successful swap at least the minimum reserve of the token paid out.", "quantifier": "every stable, rated and degen pool state and argument", "why_tests_cant": "Every success path.", "anchors": ["ref-exchange/src/stable_swap/mod.rs: assert_min_reserve", "ref-exchange/src/rated_swap/mod.rs"]}
{"id": "C19", "title": "Amplification ramps are bounded and smooth", "statement": "At every time the effective amplification lies between the ramp's start and target values, moves monotonically in time, stays within [1, 10^6], equals the target after the stop time; a new ramp can change it at most tenfold and not within a day of the previous ramp start; stopping a ramp freezes the current value.", "quantifier": "every timestamp and every history of ramp and stop calls", "why_tests_cant": "All timestamps and histories.", "anchors": ["ref-exchange/src/stable_swap/math.rs: compute_amp_factor", "ref-exchange/src/stable_swap/mod.rs: ramp_amplification, stop_ramp_amplification"]}
{"id": "C20", "title": "Stable LP minting never exceeds the contributed invariant", "statement": "Shares minted for a deposit (and fee) into a stable pool never exceed supply*(D_after-D_before)/D_before, and shares burned for a token withdrawal are never less than the floor of supply*(D_before-D_after)/D_before with D as computed by the contract.", "quantifier": "every pool state and argument", "why_tests_cant": "Rounding over all inputs.", "anchors": ["ref-exchange/src/stable_swap/math.rs: compute_lp_amount_for_deposit, compute_lp_amount_for_withdraw"]}
{"id": "C21", "title": "Stale prices block price-dependent operations", "statement": "For rated and degen pools, no swap, no withdrawal by token amounts and no deposit succeeds while the stored rate/price of any pool token is expired.", "quantifier": "every pool, token and timestamp", "why_tests_cant": "All times and histories of updates.", "anchors": ["ref-exchange/src/rated_swap/mod.rs: assert_rates_valid, calc_add_liquidity_with_rates", "ref-exchange/src/degen_swap/mod.rs: assert_degens_valid"]}
{"id": "C22", "title": "Rate conversion never creates tokens", "statement": "A rated or degen swap, which converts reserves to rated units and back, never leaves the pool's recorded reserves plus the amount paid out greater than the old reserves plus the amount paid in.", "quantifier": "every rate vector, reserves and trade", "why_tests_cant": "Two floor divisions in each direction; all rates matter.", "anchors": ["ref-exchange/src/rated_swap/math.rs: swap_to, mul_rate, div_rate", "ref-exchange/src/degen_swap/math.rs"]}
{"id": "C23", "title": "Deposits only of admissible tokens", "statement": "A plain deposit by token transfer succeeds only if the token is whitelisted globally (exact or by postfix) or already registered by that user, the token is not frozen, the contract is running, and the user's storage is covered; it then increases exactly that user's balance of exactly that token by exactly the amount.", "quantifier": "every token, sender, amount and state", "why_tests_cant": "All states.", "anchors": ["ref-exchange/src/token_receiver.rs: ft_on_transfer", "ref-exchange/src/account_deposit.rs: internal_deposit", "ref-exchange/src/lib.rs: is_whitelisted_token"]}
{"id": "C24", "title": "Failed withdrawals are never lost", "statement": "When an outgoing transfer requested by withdraw fails, the full amount is re-credited exactly once: to the user's deposit if possible, else to lost-and-found under the user, else to the owner's account; when it succeeds nothing is re-credited.", "quantifier": "every interleaving of other calls between request and callback, including unregistering", "why_tests_cant": "Asynchronous interleavings.", "anchors": ["ref-exchange/src/account_deposit.rs: withdraw, exchange_callback_post_withdraw, internal_handle_fail_in_withdraw_callback"]}
{"id": "C25", "title": "Lost-and-found pays exactly once", "statement": "claim_lostfound removes the recorded amount before sending and an entry can be paid to its owner at most once per recorded amount; failed payment restores the value.", "quantifier": "every history of claims, failures and new entries", "why_tests_cant": "Interleavings.", "anchors": ["ref-exchange/src/account_lostfound.rs: claim_lostfound, insert_lostfound_token, remove_lostfound_token"]}
{"id": "C26", "title": "Storage is prepaid", "statement": "After every successful user call that may enlarge a user's record (deposit, token registration, swap, liquidity, transfers, shadow actions) the NEAR recorded for that account covers its storage usage.", "quantifier": "every account and reachable state, for calls that save the account with the check", "why_tests_cant": "All histories.", "anchors": ["ref-exchange/src/account_deposit.rs: assert_storage_usage, internal_save_account, storage_usage", "ref-exchange/src/storage_impl.rs"]}
{"id": "C27", "title": "Unregistering never forfeits tokens", "statement": "storage_unregister succeeds only if the account has no token entry (old or new style) and no shadow record, it then removes the account and refunds exactly the recorded NEAR; nobody else's data changes.", "quantifier": "every state", "why_tests_cant": "All states.", "anchors": ["ref-exchange/src/storage_impl.rs: storage_unregister"]}
{"id": "C28", "title": "Account migration preserves balances", "statement": "For an account with old-style token entries, get_deposit of every token is unchanged by any deposit/withdraw of other tokens, and moving an entry from the old to the new representation preserves its value.", "quantifier": "every account state", "why_tests_cant": "All mixtures of old and new representation.", "anchors": ["ref-exchange/src/account_deposit.rs: get_balance, deposit, withdraw", "ref-exchange/src/legacy.rs"]}
{"id": "C29", "title": "Frozen tokens do not move", "statement": "While a token is frozen, deposits, withdrawals, swaps, adding and removing liquidity and lost-and-found claims involving that token all fail.", "quantifier": "every token and every call naming it or a pool containing it", "why_tests_cant": "All calls and argument shapes.", "anchors": ["ref-exchange/src/lib.rs: assert_no_frozen_tokens", "ref-exchange/src/owner.rs: extend_frozenlist_tokens", "ref-exchange/src/token_receiver.rs"]}
{"id": "C30", "title": "Pausing stops user actions", "statement": "While the contract is paused every user-facing state-changing call fails and changes nothing; only the owner can resume.", "quantifier": "every call while paused", "why_tests_cant": "All calls.", "anchors": ["ref-exchange/src/lib.rs: assert_contract_running", "ref-exchange/src/owner.rs: change_state"]}
{"id": "C31", "title": "Access control", "statement": "Fees, owner, guardians, whitelist removal, unfreezing, resume, referrals removal and owner withdrawals change only through calls by the owner (or, where permitted, a guardian); no sequence of calls by other accounts changes them.", "quantifier": "every sequence of calls by accounts that are neither owner nor guardian", "why_tests_cant": "All sequences.", "anchors": ["ref-exchange/src/owner.rs"]}
{"id": "C32", "title": "LP share transfers conserve shares", "statement": "mft_transfer moves exactly the amount between two distinct registered holders, never changes any other balance or the supply, and mft_transfer_call followed by its resolution leaves sender plus receiver plus contract total unchanged for every returned value, refunding at most the amount sent.", "quantifier": "every amount, pair of accounts, returned value and interleaving", "why_tests_cant": "Asynchronous interleavings and all returned values.", "anchors": ["ref-exchange/src/multi_fungible_token.rs: internal_mft_transfer, mft_resolve_transfer"]}
{"id": "C33", "title": "Shadow-staked shares are locked", "statement": "At all times the shares an account has shadow-staked in farming or lending do not exceed the shares it holds in that pool, so they can be neither withdrawn, transferred nor donated.", "quantifier": "every account, pool and reachable state", "why_tests_cant": "All interleavings of shadow actions, callbacks, liquidations, transfers and donations.", "anchors": ["ref-exchange/src/shadow_actions.rs", "ref-exchange/src/account_deposit.rs: ShadowRecord", "ref-exchange/src/donation.rs: donation_share", "ref-exchange/src/multi_fungible_token.rs"]}
{"id": "C34", "title": "Liquidation takes exactly the liquidated shares", "statement": "on_burrow_liquidation, callable only by the lending contract, moves exactly the given number of shares to the liquidator's side, reduces the lending shadow by the same number and the farming shadow only by what is needed to keep it covered; the remaining shadows stay covered.", "quantifier": "every state and amount", "why_tests_cant": "All relations between the two shadows and the balance.", "anchors": ["ref-exchange/src/shadow_actions.rs: on_burrow_liquidation"]}
{"id": "C35", "title": "Donations only take from the donor", "statement": "donation_token and donation_share reduce only the caller's balance by exactly the amount and credit the owner's deposit respectively the exchange's share balance by the same amount.", "quantifier": "every caller, token, pool, amount", "why_tests_cant": "All states, including caller equal to owner or exchange.", "anchors": ["ref-exchange/src/donation.rs"]}
{"id": "C36", "title": "Time-weighted share value records", "statement": "The oracle history of a pool never holds more than 60 records, records are at least the configured interval apart, and the reported average is the difference of accumulated amounts divided by the elapsed time between the oldest and newest record, lying between the smallest and largest per-share amounts observed.", "quantifier": "every history of updates at arbitrary times", "why_tests_cant": "Unbounded histories.", "anchors": ["ref-exchange/src/unit_lpt_cumulative_infos.rs"]}
{"id": "C37", "title": "Client echo whitelist", "statement": "An echo message to a third contract is allowed exactly when the sender is on the secure list, or both the token and the sender are matched by their whitelists, where a pattern beginning with * matches any suffix and other patterns match exactly.", "quantifier": "every list of patterns, sender and token", "why_tests_cant": "All strings.", "anchors": ["ref-exchange/src/client_echo_limit.rs"]}
{"id": "C38", "title": "Pools are permanent", "statement": "Pool ids are assigned consecutively, a pool is never removed or replaced, and its kind and token list never change.", "quantifier": "every reachable state and later state", "why_tests_cant": "All histories.", "anchors": ["ref-exchange/src/lib.rs: internal_add_pool", "ref-exchange/src/pool.rs"]}
{"id": "C39", "title": "Volume counters are monotone", "statement": "Per-token trading volume never decreases and each successful swap increases the counters by exactly the traded amounts.", "quantifier": "every history", "why_tests_cant": "All histories.", "anchors": ["ref-exchange/src/swap_volume.rs", "ref-exchange/src/lib.rs: internal_pool_swap"]}
{"id": "C40", "title": "Instant swaps do not touch deposits", "statement": "A token transfer with an instant-swap message neither reads nor changes the sender's deposits; everything the actions produce is sent back to the sender and nothing remains behind; if any action fails the tokens are returned.", "quantifier": "every message, action list and state", "why_tests_cant": "All action lists.", "anchors": ["ref-exchange/src/token_receiver.rs: internal_direct_actions, ft_on_transfer"]}
{"id": "C41", "title": "Hot zap conserves tokens", "statement": "A hot zap (swap then add liquidity from an incoming transfer) spends only tokens produced by the zap itself; leftovers are credited to the sender's deposits; the sum over sender, pools and received tokens is conserved.", "quantifier": "every message and state", "why_tests_cant": "All action lists.", "anchors": ["ref-exchange/src/token_receiver.rs: HotZap", "ref-exchange/src/utils.rs: TokenCache"]}
{"id": "C42", "title": "Farm reward conservation", "statement": "For every farm the total reward ever deposited equals undistributed plus unclaimed plus claimed (including the beneficiary part), in every reachable state.", "quantifier": "every farm and history", "why_tests_cant": "All histories of deposits, distributions and claims at arbitrary times.", "anchors": ["ref-farming/src/simple_farm.rs: add_reward, distribute, claim_user_reward, move_to_clear"]}
{"id": "C43", "title": "Farm claims are always covered", "statement": "What all farmers together could claim from a farm never exceeds its unclaimed reward, so a claim can never fail for lack of reward.", "quantifier": "every farm, set of farmers and history", "why_tests_cant": "Unbounded farmers and histories; accumulated rounding.", "anchors": ["ref-farming/src/simple_farm.rs: claim_user_reward", "ref-farming/src/actions_of_reward.rs: claim_user_reward_from_farm"]}
{"id": "C44", "title": "Seed accounting", "statement": "For each seed the total staked amount equals the sum of all farmers' stakes, and the seed tokens held by the farming contract cover stakes plus withdrawals in flight.", "quantifier": "every seed and reachable state including failed withdrawals", "why_tests_cant": "Interleavings of promises.", "anchors": ["ref-farming/src/actions_of_seed.rs", "ref-farming/src/farm_seed.rs", "ref-farming/src/farmer.rs"]}
{"id": "C45", "title": "Farm rewards solvency", "statement": "For each reward token the farming contract's holdings cover all undistributed, unclaimed, claimed-but-not-withdrawn and in-flight rewards.", "quantifier": "every reachable state", "why_tests_cant": "Interleavings of promises.", "anchors": ["ref-farming/src/actions_of_reward.rs: withdraw_reward, callback_post_withdraw_reward", "ref-farming/src/token_receiver.rs"]}
{"id": "C46", "title": "Reward emission is bounded by the schedule", "statement": "A farm never releases more than reward_per_session for each elapsed session since its start, never releases more than was deposited, and its round counter never exceeds the elapsed number of sessions.", "quantifier": "every time and history", "why_tests_cant": "All histories and times.", "anchors": ["ref-farming/src/simple_farm.rs: try_distribute"]}
{"id": "C47", "title": "Rewards are pro rata", "statement": "Between two stake changes a farmer with stake s out of total S receives, for a released amount R, no more than s*R/S and less than that by at most the documented rounding; splitting claims never pays more.", "quantifier": "every stake distribution and claim schedule", "why_tests_cant": "All schedules.", "anchors": ["ref-farming/src/simple_farm.rs: try_distribute, claim_user_reward"]}
{"id": "C48", "title": "A stake can always be withdrawn", "statement": "While the farming contract is running, a farmer can withdraw any amount up to their full stake.", "quantifier": "every reachable state", "why_tests_cant": "Depends on history (unregistering and re-registering, reward resets).", "anchors": ["ref-farming/src/actions_of_seed.rs: withdraw_seed", "ref-farming/src/farmer.rs: remove_rps", "ref-farming/src/storage_impl.rs: storage_unregister"]}
{"id": "C49", "title": "Failed farming withdrawals are restored", "statement": "If the transfer of a withdrawn seed or reward fails, the farmer's stake respectively reward and the totals are restored to include exactly the failed amount.", "quantifier": "every interleaving between request and callback", "why_tests_cant": "Interleavings.", "anchors": ["ref-farming/src/actions_of_seed.rs: callback_post_withdraw_ft_seed", "ref-farming/src/actions_of_reward.rs: callback_post_withdraw_reward"]}
{"id": "C50", "title": "Farm lifecycle and ids", "statement": "A farm only moves Created -> Running -> Ended -> Cleared, farm ids are never reused, and an ended farm accepts no more rewards.", "quantifier": "every history", "why_tests_cant": "All histories.", "anchors": ["ref-farming/src/simple_farm.rs", "ref-farming/src/actions_of_farm.rs"]}
{"id": "C51", "title": "Displayed unclaimed reward equals claim", "statement": "get_unclaimed_reward returns exactly what claim_reward_by_farm executed at the same time would credit.", "quantifier": "every farmer, farm, state and time", "why_tests_cant": "View and claim are different code.", "anchors": ["ref-farming/src/simple_farm.rs: view_farmer_unclaimed_reward, claim_user_reward", "ref-farming/src/view.rs: get_unclaimed_reward"]}
{"id": "C52", "title": "Farming pause and ownership", "statement": "While farming is paused every user call fails; only the owner can pause, resume, create or clean farms.", "quantifier": "every call", "why_tests_cant": "All calls.", "anchors": ["ref-farming/src/owner.rs", "ref-farming/src/actions_of_farm.rs", "ref-farming/src/storage_impl.rs"]}
{"id": "C53", "title": "Only the farmer can reduce their stake or rewards", "statement": "A farmer's stake (respectively claimed reward balance) only goes down by that farmer's own withdraw_seed (withdraw_reward) call, and then exactly by the amount put in transfer for them.", "quantifier": "every event by anybody in every reachable state", "why_tests_cant": "Quantifies over all callers, calls, callbacks and histories.", "anchors": ["ref-farming/src/actions_of_seed.rs", "ref-farming/src/actions_of_reward.rs", "ref-farming/src/farmer.rs", "ref-farming/src/storage_impl.rs"]}
{"id": "C54", "title": "Only the depositor's own call lowers their deposit", "statement": "A user's deposit of a token goes down only in a call made by that user, in withdraw_owner_token by owner or guardian for the owner's own account, or by the refund of a transfer with notification that the user received and did not use, then by at most the amount of that transfer.", "quantifier": "every event by anybody in every reachable state", "why_tests_cant": "Quantifies over all callers, calls, callbacks and histories.", "anchors": ["ref-exchange/src/account_deposit.rs", "ref-exchange/src/multi_fungible_token.rs: mft_resolve_transfer", "ref-exchange/src/owner.rs: withdraw_owner_token"]}
{"id": "C55", "title": "Predicted swap chains equal executions", "statement": "If a chain of swaps (in a virtual account, on own deposits, or instant with explicit first amount) succeeds, predict_swap_actions called in the same state and block answers, whatever the referral, exactly the token amounts the execution produces; if the prediction panics, so does the execution.", "quantifier": "every state, chain of actions, deposit and referral", "why_tests_cant": "The prediction is separate code with pool and token caches; chains may visit a pool repeatedly.", "anchors": ["ref-exchange/src/views.rs: predict_swap_actions", "ref-exchange/src/lib.rs: internal_execute_actions_by_cache", "ref-exchange/src/utils.rs: TokenCache"]}
{"id": "C56", "title": "Predicted zaps equal executions", "statement": "If a hot zap succeeds, predict_hot_zap called in the same state and block answers exactly the leftovers credited to the sender and the shares minted in each pool.", "quantifier": "every state, chain, positions and transferred amount", "why_tests_cant": "Separate code for view and execution, arbitrary interleaving of swaps and positions in the same pools.", "anchors": ["ref-exchange/src/views.rs: predict_hot_zap", "ref-exchange/src/token_receiver.rs"]}
{"id": "C57", "title": "Quotes and liquidity predictions equal executions", "statement": "get_return, get_return_by_output, predict_add_simple_liquidity, predict_add_stable_liquidity, predict_remove_liquidity and predict_remove_liquidity_by_tokens answer exactly what the corresponding call in the same state returns or moves; get_deposits, get_pool_shares and get_pool_total_shares show the recorded balances.", "quantifier": "every state and argument", "why_tests_cant": "All states, amounts and referrals.", "anchors": ["ref-exchange/src/views.rs"]}
{"id": "C58", "title": "Only the holder's own call lowers their pool shares", "statement": "A liquidity provider's shares of a pool go down only in a call made by that account; or, for the exchange's own fee shares, in a removal by owner or guardian; or in a liquidation by the lending contract, by exactly the liquidated amount and no more than was staked there; or by the refund of a transfer with notification that the account received and did not use, by at most the amount of that transfer.", "quantifier": "every event by anybody in every reachable state", "why_tests_cant": "Quantifies over all callers, calls, callbacks and histories.", "anchors": ["ref-exchange/src/multi_fungible_token.rs", "ref-exchange/src/shadow_actions.rs", "ref-exchange/src/owner.rs: remove_exchange_fee_liquidity", "ref-exchange/src/lib.rs"]}
{"id": "C59", "title": "The computed stable invariant is not below the exact one", "statement": "Whatever the balances, rates and amplification, and however its iteration ends, the invariant D the contract computes for a stable, rated or degen pool is at least the exact StableSwap invariant rounded down.", "quantifier": "every reachable pool, time, rates and balances", "why_tests_cant": "Newton iteration with rounding divisions on 128-bit balances; no finite set of balances covers it.", "anchors": ["ref-exchange/src/stable_swap/math.rs: compute_d", "ref-exchange/src/rated_swap/math.rs: compute_d"]}
{"id": "C60", "title": "Trades do not lower the exact stable invariant", "statement": "No sequence of trades in a stable pool lowers the exact StableSwap invariant (rounded down), so traders together never extract value, and a round trip never earns.", "quantifier": "every reachable stable pool and every sequence of trades by anyone", "why_tests_cant": "Rounding of two iterative solvers has to be bounded for all balances.", "anchors": ["ref-exchange/src/stable_swap/math.rs: swap_to, compute_y", "ref-exchange/src/stable_swap/mod.rs: swap"]}
{"id": "C61", "title": "Redemption does not lower the exact invariant per share", "statement": "Redeeming shares of a stable, rated or degen pool pro rata never lowers the exact StableSwap invariant per share of the remaining holders.", "quantifier": "every reachable pool, amplification and number of shares", "why_tests_cant": "Quantifies over all balances; the invariant has no closed form.", "anchors": ["ref-exchange/src/stable_swap/mod.rs: remove_liquidity_by_shares"]}
{"id": "C62", "title": "Share ids and shadow ids name their pool", "statement": "The id printed for a pool's shares is read back as that pool, and so is the shadow id sent to farming and lending contracts; ids of different pools differ; exactly the ids consisting of a colon, an optional plus sign and decimal digits of a 64-bit number are read as pools, everything else is a token.", "quantifier": "every pool id below 2^64 and every string", "why_tests_cant": "Quantifies over all 64-bit ids and all strings.", "anchors": ["ref-exchange/src/multi_fungible_token.rs: try_identify_pool_id, parse_token_id", "ref-exchange/src/shadow_actions.rs: pool_id_to_shadow_id, shadow_id_to_pool_id"]}
{"id": "C63", "title": "The average record follows its pool", "statement": "A pool's cumulative record is at every moment the result of observations in order of time, at most one per moment; every event that changes what one share of a recorded pool stands for first extends the record with what one share stood for until then, weighted by the time since the last observation.", "quantifier": "every history of calls, transfers and callbacks, every recorded pool", "why_tests_cant": "Quantifies over all interleavings of swaps, liquidity and time.", "anchors": ["ref-exchange/src/unit_lpt_cumulative_infos.rs", "ref-exchange/src/lib.rs: internal_update_unit_share_cumulative_info", "ref-exchange/src/token_receiver.rs"]}
{"id": "C64", "title": "Deposits can be withdrawn", "statement": "While the exchange is running and the token is not frozen, an account whose NEAR covers its storage can withdraw any part of its deposit of a standard token, and a recorded lost-and-found amount can be claimed; the call succeeds and the exchange holds the tokens so that the scheduled transfer can be executed.", "quantifier": "every history of calls, transfers, failures and callbacks, every account and amount", "why_tests_cant": "Quantifies over all histories; needs the solvency of the exchange in all of them.", "anchors": ["ref-exchange/src/account_deposit.rs: withdraw", "ref-exchange/src/account_lostfound.rs: claim_lostfound"]}
{"id": "C65", "title": "Pool shares can be redeemed", "statement": "While the exchange is running and the tokens are not frozen, shares that are staked nowhere can be redeemed for their part of the pool and the tokens withdrawn, whatever happened before, provided the account pays for the token entries and, in a stable pool, the least balances remain.", "quantifier": "every history, every pool, holder and number of shares", "why_tests_cant": "Quantifies over all histories and amounts; includes overflow of balances, storage and cumulative records.", "anchors": ["ref-exchange/src/lib.rs: remove_liquidity", "ref-exchange/src/simple_pool.rs: remove_liquidity", "ref-exchange/src/stable_swap/mod.rs: remove_liquidity_by_shares", "ref-exchange/src/unit_lpt_cumulative_infos.rs"]}
{"id": "C66", "title": "The computed invariant is the exact one", "statement": "When no balance of a stable pool is far below the average and the amplification is large for that spread, the invariant D the contract computes is the exact StableSwap invariant rounded down, or one more; in particular the Newton iteration converges.", "quantifier": "every reachable stable, rated or degen pool, time, rates and balances within the stated spread", "why_tests_cant": "The exact invariant is a real root of a polynomial; quantifies over all balances and 256-step iterations.", "anchors": ["ref-exchange/src/stable_swap/math.rs: compute_d", "ref-exchange/src/rated_swap/math.rs: compute_d", "ref-exchange/src/degen_swap/math.rs: compute_d"]}
{"id": "C67", "title": "A stable trade pays what the invariant dictates", "statement": "A trade in a stable pool pays the amount the exact invariant dictates less the fee, within three units of the kept decimals: paying more before the fee would bring the exact invariant down to the computed invariant before the trade.", "quantifier": "every reachable stable pool, trade, amplification and time", "why_tests_cant": "Quantifies over all balances and iterations; a tight two-sided bound on an iteration.", "anchors": ["ref-exchange/src/stable_swap/math.rs: compute_y, swap_to", "ref-exchange/src/stable_swap/mod.rs: swap"]}
{"id": "C68", "title": "Fees and amplifications stay within bounds", "statement": "In every history the protocol's part of the fees stays at most 80 percent unless deployed with more, every registered referral gets more than nothing and less than everything of it, every pool's fee is below 100 percent, and every amplification lies between 1 and 10^6.", "quantifier": "every history of calls, transfers and callbacks", "why_tests_cant": "Quantifies over all histories of settings calls.", "anchors": ["ref-exchange/src/owner.rs: modify_admin_fee, insert_referral, update_referral, modify_total_fee, stable_swap_ramp_amp", "ref-exchange/src/utils.rs: MAX_ADMIN_FEE_BPS"]}
{"id": "C69", "title": "Settings change only by the call meant for them, to the given value", "statement": "After every event each setting of the exchange, each registration with the oracles, and each pool's fee and ramp is what the call meant for it says, and unchanged if the event is not such a call; lists gain exactly the added entries and lose exactly the removed ones.", "quantifier": "every event in every reachable state, every setting", "why_tests_cant": "Quantifies over all calls and all settings at once.", "anchors": ["ref-exchange/src/owner.rs", "ref-exchange/src/client_echo_limit.rs", "ref-exchange/src/unit_lpt_cumulative_infos.rs: modify_cumulative_info_record_interval_sec", "ref-exchange/src/rated_swap/rate.rs", "ref-exchange/src/degen_swap/degen.rs"]}
{"id": "C70", "title": "NEAR is conserved and only its price is kept", "statement": "For every call, NEAR credited to the accounts afterwards plus NEAR sent away plus NEAR kept equals NEAR credited before plus NEAR attached plus the price of freed storage; apart from swaps and the removal of stakes, a call keeps at most the price of the storage it takes, or one yocto. Incoming tokens and callbacks obey the same equation.", "quantifier": "every call, incoming transfer and stake callback, every state", "why_tests_cant": "Quantifies over all calls, attached amounts and states.", "anchors": ["ref-exchange/src/storage_impl.rs", "ref-exchange/src/utils.rs", "ref-exchange/src/lib.rs: internal_check_storage", "ref-exchange/src/shadow_actions.rs", "ref-exchange/src/donation.rs", "ref-exchange/src/multi_fungible_token.rs: mft_unregister", "ref-exchange/src/token_receiver.rs: hot zap"]}
{"id": "C71", "title": "Credited NEAR is backed", "statement": "Along every history the NEAR credited to accounts never exceeds what the exchange received and has not paid out or used for storage, and no payment of NEAR exceeds what it has, provided the storage paid for a refused stake is freed again.", "quantifier": "every history", "why_tests_cant": "Quantifies over all histories with all interleavings of stakes and their callbacks.", "anchors": ["ref-exchange/src/shadow_actions.rs: callback_on_shadow", "ref-exchange/src/storage_impl.rs", "ref-exchange/src/account_deposit.rs"]}
{"id": "C72", "title": "NEAR of the farmers is conserved, backed and theirs", "statement": "Every call of the farming contract conserves NEAR: recorded before plus attached equals recorded afterwards plus sent back plus kept plus forwarded with a token transfer. What is recorded for farmers never exceeds what the contract received and did not pay out, every payment is affordable, only the farmer's own call lowers the record of a farmer and it sends exactly the difference to them, what exceeds the price of their storage can be withdrawn, and who has neither stakes nor rewards can leave with everything recorded.", "quantifier": "every history of the farming contract, every call and farmer", "why_tests_cant": "Quantifies over all histories, calls and farmers.", "anchors": ["ref-farming/src/storage_impl.rs", "ref-farming/src/lib.rs: create_simple_farm", "ref-farming/src/farmer.rs"]}
{"id": "C73", "title": "Statistics of the farming contract are exact", "statement": "In every reachable state the farmer count is the number of registered farmers, and the total reward shown for a token is what sponsors brought of that token and the sum over all farms, present and cleared.", "quantifier": "every history of the farming contract, every token", "why_tests_cant": "Quantifies over all histories.", "anchors": ["ref-farming/src/view.rs: get_metadata, get_reward_info", "ref-farming/src/storage_impl.rs", "ref-farming/src/farm_seed.rs", "ref-farming/src/token_receiver.rs"]}
{"id": "C74", "title": "Farming storage is paid for when it grows", "statement": "After a stake, a claim, a storage deposit or a storage withdrawal the storage of the farmer is paid for, and a farmer whose storage is not paid for can neither stake nor claim before paying.", "quantifier": "every history of the farming contract, every farmer", "why_tests_cant": "Quantifies over all histories and storage sizes.", "anchors": ["ref-farming/src/farmer.rs: storage_usage, assert_storage_usage", "ref-farming/src/storage_impl.rs", "ref-farming/src/actions_of_farmer_reward.rs", "ref-farming/src/actions_of_farmer_seed.rs"]}
{"id": "C75", "title": "The displayed farm is what the next operation finds", "statement": "Status, total, current and last round of a farm and the sum of claimed and unclaimed rewards shown by the view equal what the next operation at that time computes; with stakes present so do claimed, unclaimed and beneficiary amounts separately. Claimed plus unclaimed never exceed the total.", "quantifier": "every farm, time and amount of stakes; every history for the last part", "why_tests_cant": "Quantifies over all farms, times and stakes.", "anchors": ["ref-farming/src/view.rs: FarmInfo", "ref-farming/src/simple_farm.rs: try_distribute, distribute"]}
{"id": "C76", "title": "Claims, stakes and withdrawals of the farming contract succeed", "statement": "While the contract runs and the year is before 2106, if the farms of a seed have a session interval and their rewards fit, every farmer with a stake, or without a record of the seed's farms, who pays for the storage can claim and stake, and every farmer who did not unregister in between can withdraw any part of their stake. If a farm with a session interval of zero is running, no stake of its seed ever changes again.", "quantifier": "every history of the farming contract, every farmer, seed, amount and time", "why_tests_cant": "Quantifies over all histories; needs absence of overflow in all reward computations of all farms of the seed.", "anchors": ["ref-farming/src/actions_of_farmer_seed.rs", "ref-farming/src/actions_of_farmer_reward.rs", "ref-farming/src/simple_farm.rs: try_distribute", "ref-farming/src/token_receiver.rs"]}
{"id": "C77", "title": "Splitting a trade never pays", "statement": "Several trades in the same direction on a simple pool, each with exact input or exact output, by anyone and in any amounts, give in all at most what one trade of the total input would have given; and several purchases cost at least what one purchase of the total would have cost.", "quantifier": "every reachable simple pool, every number and size of the parts", "why_tests_cant": "Quantifies over all splittings of all trades; rounding happens in every part.", "anchors": ["ref-exchange/src/simple_pool.rs: internal_get_return, internal_get_return_by_output, swap, swap_by_output"]}
{"id": "C78", "title": "Size and order of trades act in the expected direction", "statement": "On a simple pool more input never gives less output and more output never costs less; the price of a larger sale is not better, up to one unit; any trades in the same direction before a trade never improve it, any trades in the other direction never worsen it.", "quantifier": "every reachable simple pool, every two sizes, every sequence of trades before", "why_tests_cant": "Relates two executions for all amounts.", "anchors": ["ref-exchange/src/simple_pool.rs: internal_get_return, internal_get_return_by_output, swap, swap_by_output"]}
{"id": "C79", "title": "Boost farming: totals are exact and backed", "statement": "In every reachable state of the boost farming contract the amount and the power recorded for a seed are the sums over all farmers, the contract holds of every token at least the stakes, the slashed stakes and all deposited rewards, its counters of farmers and farms are exact, and it holds the NEAR of all registrations.", "quantifier": "every history of the boost farming contract, every seed, token and floating point behaviour with 0 as the product of 0", "why_tests_cant": "Quantifies over all histories with any number of farmers, seeds and farms.", "anchors": ["mock-boost-farming/src/farmer_seed.rs", "mock-boost-farming/src/actions_of_farmer_seed.rs", "mock-boost-farming/src/token_receiver.rs", "mock-boost-farming/src/storage_impl.rs"]}
{"id": "C80", "title": "Boost farming: rewards are conserved", "statement": "A farm distributes at most its deposits; what is claimed, due to the beneficiary and still owed to the stakes is at most what was distributed; a removed farm is settled to the last unit; the farmers' rewards are exactly what the farms recorded as claimed and are held by the contract; a claim pays per farm the floor of stake power times the growth of the reward per power, and a second claim at the same time pays nothing.", "quantifier": "every history of the boost farming contract, every farm, farmer and token", "why_tests_cant": "Quantifies over all histories of stakes, locks, boosts and claims with rounding at each step.", "anchors": ["mock-boost-farming/src/seed_farm.rs", "mock-boost-farming/src/seed.rs", "mock-boost-farming/src/actions_of_farmer_reward.rs", "mock-boost-farming/src/actions_of_seed.rs: remove_farm_from_seed"]}
{"id": "C81", "title": "Boost farming: stakes, locks and penalties are exact", "statement": "A free stake adds exactly the amount; locking adds the amount multiplied by the boost for its duration, which lies between the amount and the amount times the maximal multiplier and grows with the duration; giving up a lock early frees the amount less the penalty proportional to the remaining time, at most the seed's rate, and the penalty is recorded as slashed; nothing else changes a stake, only the farmer's own acts change their record, and recorded rewards never fall.", "quantifier": "every event in every reachable state, every farmer and seed", "why_tests_cant": "Quantifies over all stakes, durations and times.", "anchors": ["mock-boost-farming/src/farmer_seed.rs: add_free, add_lock, free_to_lock, unlock_to_free_with_slashed", "mock-boost-farming/src/actions_of_farmer_seed.rs", "mock-boost-farming/src/token_receiver.rs"]}
{"id": "C82", "title": "Boost farming: a farm keeps its terms", "statement": "Start, token and counters of a farm evolve only as prescribed: between two moments a running farm distributes at most its daily reward times the days passed, its daily reward changes only by the call meant for it, and a removed farm never comes back.", "quantifier": "every history, every farm", "why_tests_cant": "Quantifies over all histories and all times of updates.", "anchors": ["mock-boost-farming/src/seed_farm.rs: update", "mock-boost-farming/src/seed.rs", "mock-boost-farming/src/actions_of_seed.rs"]}
{"id": "C83", "title": "Boost farming: guards and settings", "statement": "Owner calls succeed only for the owner, operator calls only for owner and operators, while paused only the calls meant for it succeed, and calls that need a yocto have it; incoming tokens are accepted only while running, for a registered farmer and an existing seed or farm with that reward token and at least the minimal deposit. Each setting after a call is what the call meant for it says and unchanged otherwise; the decimals, least deposit, penalty and least locking time of a seed are those of its creation until the call for that term changes it, for that seed only; a new farm is empty and has the given token, start and reward; the multiplier stays above 100 percent, the default penalty below 100 percent and no booster boosts itself.", "quantifier": "every call, every incoming transfer, every history for the limits", "why_tests_cant": "Quantifies over all callers, calls, settings.", "anchors": ["mock-boost-farming/src/owner.rs", "mock-boost-farming/src/management.rs", "mock-boost-farming/src/token_receiver.rs", "mock-boost-farming/src/booster.rs: assert_valid"]}
{"id": "C84", "title": "Boost farming: NEAR of registrations", "statement": "Every call sends exactly the prescribed NEAR: a registration returns what exceeds its price, a repeated one everything, leaving returns the price to the sponsor; registering succeeds exactly when the price is attached, leaving exactly when the farmer has neither stakes nor rewards.", "quantifier": "every call, every reachable state", "why_tests_cant": "Quantifies over all calls, amounts and farmers.", "anchors": ["mock-boost-farming/src/storage_impl.rs"]}
{"id": "C85", "title": "Boost farming: what farmers can rely on", "statement": "A stake can be locked again after its lock has run out, a lock can be given up or ended, rewards not claimed when a farm is removed are not lost, rewards are earned from when they are deposited, and a wrong daily reward can be repaired by an operator.", "quantifier": "every reachable state, every farmer and farm", "why_tests_cant": "Quantifies over all histories leading to a state.", "anchors": ["mock-boost-farming/src/farmer_seed.rs", "mock-boost-farming/src/actions_of_farmer_seed.rs", "mock-boost-farming/src/actions_of_seed.rs", "mock-boost-farming/src/seed_farm.rs", "mock-boost-farming/src/management.rs"]}
{"id": "C86", "title": "Boost farming: claims, stakes, locks and unlocks succeed", "statement": "While the contract runs, if the daily rewards of the seed's farms fit the time passed, boosters have at most 38 decimals and the power of the seed fits, every registered farmer can claim; for seeds that are not boosters they can stake, lock a new amount, lock free stake, and give up a running lock in a seed whose penalty is at most 100 percent.", "quantifier": "every reachable state, every farmer, seed, amount and duration", "why_tests_cant": "Needs absence of overflow in all intermediate values of all farms of the seed.", "anchors": ["mock-boost-farming/src/actions_of_farmer_reward.rs", "mock-boost-farming/src/actions_of_farmer_seed.rs", "mock-boost-farming/src/token_receiver.rs", "mock-boost-farming/src/seed_farm.rs: update", "mock-boost-farming/src/booster.rs"]}
{"id": "C87", "title": "Boost farming: displayed rewards are paid", "statement": "Whenever a claim succeeds the rewards displayed as unclaimed at that time are displayed without failure and the claim pays exactly them; the claim leaves every displayed farm unchanged but for its claimed amount, which grows by what it owes to the stake; leaving returns the displayed storage balance.", "quantifier": "every state, farmer, seed, farm and time", "why_tests_cant": "Quantifies over all states and relates a view to an execution.", "anchors": ["mock-boost-farming/src/view.rs: get_unclaimed_rewards, get_farm", "mock-boost-farming/src/farmer.rs: internal_calc_farmer_claim, internal_do_farmer_claim", "mock-boost-farming/src/storage_impl.rs: storage_balance_of"]}
{"id": "C88", "title": "Exchange, farm and lender agree on shadow-staked shares", "statement": "With an honest lender, whatever the farm does: the lender's book plus stakes not yet accepted (or refused and not yet taken back) plus releases accepted but not yet reported is exactly what the exchange records as staked in lending, for every account and pool; likewise for an honest farm as long as no liquidation reaches into what is staked there; answers come in any order. With nothing under way both record the same; the book never exceeds the shares held while the locks hold; every report of an answer succeeds and takes a refused stake or an accepted release off the record. A liquidation that reaches into a stake on its way to the farm breaks this: shares can stay recorded in a farm that has none and are then locked until liquidated, or the farm can credit more than is held.", "quantifier": "every interleaving of calls, answers and reports; every account, pool and amount", "why_tests_cant": "Quantifies over all interleavings of asynchronous messages between three contracts.", "anchors": ["ref-exchange/src/shadow_actions.rs: shadow_action, callback_on_shadow, on_burrow_liquidation, callback_on_burrow_liquidation", "ref-exchange/src/account_deposit.rs: update_shadow_record"]}
{"id": "C89", "title": "The value limit of degen pools", "statement": "After every call that adds stable liquidity and after every incoming transfer that adds liquidity (hot zap), a degen pool with a limit is worth, at the recorded prices, at most its limit plus less than one dollar per token; the value computed for the check is the worth rounded down per token, and nothing within the limit is refused on its account. The limit is not an invariant: a trade can take the pool above it, and liquidity is still admitted at expired prices.", "quantifier": "every exchange state, pool, amount, price and time", "why_tests_cant": "Quantifies over all prices, balances and numbers of tokens.", "anchors": ["ref-exchange/src/pool.rs: assert_tvl_not_exceed_limit", "ref-exchange/src/degen_swap/mod.rs: get_tvl", "ref-exchange/src/lib.rs: add_stable_liquidity", "ref-exchange/src/token_receiver.rs", "ref-exchange/src/pool_limit_info.rs"]}
{"id": "C90", "title": "The displayed price of stable shares", "statement": "get_share_price shows, rounded down to eight decimals, the sum of the balances per share of a stable pool and the computed invariant per share of a rated or degen pool; it is never below the exact invariant per share; redeeming shares of a stable pool pays, over all tokens, what the price says up to the last shown digit and one unit per token, and never lowers the displayed price. It is not the invariant of a stable pool: one trade can raise the price by half, trading back lowers it again.", "quantifier": "every reachable stable, rated and degen pool, every price, rate and redemption", "why_tests_cant": "Quantifies over all balances, supplies and rates.", "anchors": ["ref-exchange/src/stable_swap/mod.rs: get_share_price", "ref-exchange/src/rated_swap/mod.rs: get_share_price", "ref-exchange/src/degen_swap/mod.rs: get_share_price", "ref-exchange/src/views.rs: get_pool_share_price"]}
{"id": "C91", "title": "Quoted trades execute", "statement": "In every execution with standard tokens: if get_return quotes an output of at least the minimum for a trade and the caller holds the input, has room for storage, and neither the exchange is paused nor a token frozen, the swap succeeds, takes exactly the input and credits exactly the quoted output; likewise the swap by output with get_return_by_output. The bookkeeping never stands in the way: volume counters always have one pair per token, referral fees below 100 percent always fit.", "quantifier": "every execution, account, pool of every kind, amount, referral and minimum", "why_tests_cant": "Liveness: no step of the call may panic for any reachable state and any amount.", "anchors": ["ref-exchange/src/lib.rs: swap, swap_by_output, execute_actions, internal_pool_swap, internal_pool_swap_by_output", "ref-exchange/src/action.rs", "ref-exchange/src/views.rs: get_return, get_return_by_output", "ref-exchange/src/simple_pool.rs: swap", "ref-exchange/src/stable_swap/mod.rs: swap"]}
{"id": "C92", "title": "Predicted changes of liquidity execute", "statement": "In every execution with standard tokens: if predict_add_simple_liquidity shows the amounts needed and the shares for an offer, the minimums are met and the caller holds the amounts and pays for storage, add_liquidity succeeds, takes exactly these amounts and mints exactly these shares; the same for predict_add_stable_liquidity and add_stable_liquidity in pools without a value limit; and if predict_remove_liquidity_by_tokens shows the shares to burn, the caller has them free and allows that many, remove_liquidity_by_tokens succeeds, burns exactly these and credits the amounts.", "quantifier": "every execution, account, pool of every kind, amounts and limits", "why_tests_cant": "Liveness: no step of the call may panic for any reachable state and any amounts.", "anchors": ["ref-exchange/src/lib.rs: add_liquidity, add_stable_liquidity, remove_liquidity_by_tokens", "ref-exchange/src/views.rs: predict_add_simple_liquidity, predict_add_stable_liquidity, predict_remove_liquidity_by_tokens", "ref-exchange/src/simple_pool.rs: add_liquidity", "ref-exchange/src/stable_swap/mod.rs: add_liquidity, remove_liquidity_by_tokens"]}
{"id": "C93", "title": "Predicted chains of trades execute", "statement": "In every execution with standard tokens: if predict_swap_actions answers for a chain of swaps, sent with arriving tokens (instant swap), against a virtual account, or from the own deposits, the chain executes and credits exactly what was predicted; if predict_hot_zap answers, the zap executes, with exactly the predicted leftovers and, for accounts outside the fees, the predicted shares. Only the stated guards can prevent it: storage, frozen tokens, the running state, stale prices where a refresh is not skipped.", "quantifier": "every execution, account, chain of any length over pools of any kinds (also repeatedly over the same pool), amounts and minimums", "why_tests_cant": "Liveness of a loop over arbitrarily many pools: no step may panic for any reachable state.", "anchors": ["ref-exchange/src/lib.rs: internal_execute_actions, internal_execute_actions_by_cache", "ref-exchange/src/action.rs", "ref-exchange/src/token_receiver.rs", "ref-exchange/src/account_deposit.rs", "ref-exchange/src/views.rs: predict_swap_actions, predict_hot_zap"]}
{"id": "C94", "title": "What the views show", "statement": "A page of pools shows the pools from the first index in order, as many as asked for and there are, and consecutive pages together show everything once; a pool is shown with its kind, tokens, supply and, for every token, the reserve (a degen pool only once all its tokens have prices, otherwise every page with it is refused); all that the views show of a standard token, in all pools and all deposits, is held by the exchange. The token pages of an account without old-format entries show exactly its deposits; old-format entries are on no page. The storage shown as available can be taken back, all of it or a part, and nothing more; leaving returns the shown total. The averages given to the lending contract have an entry for exactly the pools with records, refused as a whole if one asked for has none.", "quantifier": "every reachable state, page, pool, account, time", "why_tests_cant": "Quantifies over all states and page bounds, relates views to executions.", "anchors": ["ref-exchange/src/views.rs: get_pools, get_pool, get_pool_by_ids, storage views", "ref-exchange/src/views.rs: get_tokens_paged", "ref-exchange/src/storage_impl.rs: storage_balance_of", "ref-exchange/src/unit_lpt_cumulative_infos.rs", "ref-exchange/src/shadow_actions.rs: get_unit_lpt_assets"]}
{"id": "C95", "title": "Quotes at chosen rates", "statement": "The quotes of rated and degen pools for given rates (get_rated_return, get_degen_return, predict_add/remove of rated and degen liquidity) are what a trade, deposit or withdrawal yields in any exchange with this pool once these rates are the recorded ones; without rates they are the quotes at the recorded rates. They are no promise: they are also given at expired prices, at which the trade is refused. In a pool with a token that has no recorded price there are none, whatever rates are given.", "quantifier": "every pool, pair of exchange states, amount and rates", "why_tests_cant": "Quantifies over all rates and states.", "anchors": ["ref-exchange/src/views.rs: get_rated_return, get_degen_return, predict_add_rated_liquidity, predict_remove_rated_liquidity_by_tokens, predict_add_degen_liquidity, predict_remove_degen_liquidity_by_tokens"]}
{"id": "C96", "title": "Wrapped NEAR is backed by NEAR", "statement": "In every execution of the wrapped-NEAR contract the balances add up to the supply, the contract owns NEAR for every wrapped NEAR and every storage deposit, and what it owns beyond that never shrinks; a holder can unwrap any part at any time; wrapping mints what was attached, less the storage price of a new account; only the account itself or the refund of a transfer it received takes tokens from it; a transfer moves exactly its amount and the answer to a transfer with a message can always be processed and returns what was not used as far as the receiver still has it.", "quantifier": "every sequence of calls by anybody, answers in any order", "why_tests_cant": "Quantifies over all histories and interleavings.", "anchors": ["mock-wnear/src/w_near.rs: near_deposit, near_withdraw", "mock-wnear/src/lib.rs", "test-token/src/lib.rs"]}
{"id": "C97", "title": "The exchange and the books of a token contract agree", "statement": "In every execution of the exchange together with the wrapped-NEAR (NEP-141) contract, where refunds of refused transfers and answers to transfers with a message are receipts of their own in any order: the balance the token contract records for the exchange differs from the holdings of the exchange's world exactly by what is still to be returned or answered; it covers everything owed, promised and to be returned at every moment; refused transfers are returned in full; scheduled transfers never fail for lack of tokens, only for an unregistered receiver, the exchange itself or amount zero; scheduled unwrappings succeed; every answer can be processed.", "quantifier": "every interleaving of calls, receipts and answers of both contracts; tokens all pools keep exactly; a careful owner", "why_tests_cant": "Refinement between two asynchronous contracts over all interleavings.", "anchors": ["mock-wnear/src/w_near.rs", "mock-wnear/src/lib.rs", "ref-exchange/src/token_receiver.rs: ft_on_transfer", "ref-exchange/src/account_deposit.rs: internal_send_tokens, exchange_callback_post_withdraw, exchange_callback_post_withdraw_near", "ref-exchange/src/lib.rs"]}
{"id": "C98", "title": "Pool shares staked in ref-farming", "statement": "In every execution of the exchange together with ref-farming, where sending shares, accepting or refusing them, resolving the transfer, withdrawing and its callback are receipts of their own in any order: everything the farm records as staked in a pool, everything being withdrawn and everything sent and not yet accepted is in the farm's balance of shares at the exchange; there is one seed per pool; a withdrawal is executed by the exchange whenever it runs and the receiver is registered with the pool, and moves exactly the amount taken off the stake; an accepted transfer adds its amount to the stake and leaves the exchange alone; a refused one returns all of it to the sender, if still registered.", "quantifier": "every interleaving of calls and receipts of both contracts, all pools and accounts", "why_tests_cant": "Refinement between two asynchronous contracts over all interleavings.", "anchors": ["ref-farming/src/token_receiver.rs: mft_on_transfer", "ref-farming/src/utils.rs: parse_seed_id, wrap_mft_token_id", "ref-farming/src/actions_of_seed.rs: withdraw_seed, callback_post_withdraw_mft_seed", "ref-exchange/src/multi_fungible_token.rs: mft_transfer_call, mft_resolve_transfer, mft_transfer"]}
{"id": "C99", "title": "Staked liquidity can be turned back into tokens", "statement": "A farmer of ref-farming who stayed registered with it, and whose account and share entry at the exchange exist, can take any part of their stake in a pool out: the withdrawal from the farm succeeds, the share transfer it sends is executed by the exchange, removing that liquidity succeeds and credits exactly what the shares are worth, and each of the tokens can be withdrawn.", "quantifier": "every reachable state of the joint system of exchange and ref-farming, any amount up to the stake", "why_tests_cant": "Liveness across two contracts and four transactions, for every reachable state.", "anchors": ["ref-farming/src/actions_of_seed.rs: withdraw_seed", "ref-exchange/src/multi_fungible_token.rs: mft_transfer", "ref-exchange/src/lib.rs: remove_liquidity", "ref-exchange/src/account_deposit.rs: withdraw"]}
{"id": "C100", "title": "ref-farming and the token contract agree", "statement": "In every execution of ref-farming together with the token contract of one of its seeds or rewards, where transfers, notifications, refunds, withdrawals and callbacks are receipts of their own in any order: the farm makes only the steps assumed of an honest token; the contract's balance of the farm covers all stakes, claimed rewards, rewards of all farms, withdrawals under way and refunds; a withdrawal fails only if the receiver is not registered or the amount is zero; refused transfers come back in full and accepted ones stay; a registered farmer gets any part of a claimed reward.", "quantifier": "every interleaving of calls and receipts of both contracts, all amounts and accounts", "why_tests_cant": "Refinement between two asynchronous contracts over all interleavings.", "anchors": ["ref-farming/src/token_receiver.rs: ft_on_transfer", "ref-farming/src/actions_of_reward.rs: withdraw_reward", "ref-farming/src/actions_of_seed.rs: withdraw_seed", "mock-wnear/src/lib.rs", "mock-wnear/src/w_near.rs"]}
{"id": "C101", "title": "Who puts tokens on an account's list", "statement": "An account of the exchange pays storage for every token it has an entry for, and an entry appears only by the account's own decision, by the owner approving the token, or by a payment coming back.", "quantifier": "every event in every state, all accounts and tokens", "why_tests_cant": "A frame condition over every function of the contract; a test sees one function.", "anchors": ["ref-exchange/src/account_deposit.rs: deposit, internal_deposit, register_tokens", "ref-exchange/src/multi_fungible_token.rs: mft_transfer, internal_mft_transfer", "ref-exchange/src/token_receiver.rs: ft_on_transfer", "ref-exchange/src/lib.rs: internal_save_account"]}
{"id": "C102", "title": "Wrapped NEAR is paid as NEAR only when asked for", "statement": "A payment of the exchange unwraps NEAR exactly when the token is the configured wrapped NEAR and the caller (or the message) asked not to skip the unwrapping; everything else is an ordinary transfer of the token. The payments of an instant swap have positive amounts and go to the sender, with a message if the sender asked for one, or to the recipient named.", "quantifier": "every call and message in every state, all tokens, amounts and receivers", "why_tests_cant": "All 60 functions and every list of payments.", "anchors": ["ref-exchange/src/account_deposit.rs: internal_send_tokens, withdraw", "ref-exchange/src/owner.rs: withdraw_owner_token", "ref-exchange/src/token_receiver.rs: ft_on_transfer"]}
{"id": "C103", "title": "Entries of different collections never share a storage key", "statement": "The exchange, ref-farming and mock-boost-farming each keep all their collections in one flat key-value storage. For all account ids, token ids, farm ids, indices and pool ids below 2^32, two different entries (of the same or of different collections, or single values) have different keys, so writing or removing one leaves every other as it is.", "quantifier": "all pairs of entries of each contract", "why_tests_cant": "Infinitely many account and token names; a collision needs two particular ones.", "anchors": ["ref-exchange/src/lib.rs: StorageKey", "ref-exchange/src/custom_keys.rs", "ref-exchange/src/swap_volume.rs: internal_set_swap_volume_u256_vec", "ref-farming/src/lib.rs: StorageKeys", "mock-boost-farming/src/lib.rs: StorageKeys"]}
{"id": "C104", "title": "Ids of farms and seeds name one thing", "statement": "Farms of different seeds or with different indices have different ids. Both farming contracts read the ids they give out as the farm's seed and index (ref-farming: exactly for seed ids without '#'), and a string read as some farm is that farm's id or no farm's. Deposits recorded under one seed id are of the same token or the same pool's shares from the same contract, and at any time a withdrawal of the seed sends them back to that contract under an id naming the same shares.", "quantifier": "all seed ids, indices, senders and token ids, and every sequence of farm creations, deposits, withdrawals and failed withdrawals", "why_tests_cant": "All strings and all histories of a seed's stored type.", "anchors": ["ref-farming/src/utils.rs: parse_farm_id, gen_farm_id, parse_seed_id", "ref-farming/src/token_receiver.rs: mft_on_transfer", "ref-farming/src/actions_of_seed.rs: withdraw_seed, internal_seed_deposit", "ref-farming/src/farm_seed.rs: FarmSeed::new", "mock-boost-farming/src/utils.rs: gen_farm_id, parse_farm_id"]}
{"id": "C105", "title": "Exchange and mock-boost-farming agree on staked shares", "statement": "Run together with asynchronous mft_transfer_call, the two contracts agree: everything staked under any id of a pool's shares, all penalties for broken locks and everything still being sent is in the farm's balance of these shares at the exchange; what the farm accepts is staked for the sender and kept, what it refuses goes back in full; and the farm's shares never become fewer, since nothing withdraws them.", "quantifier": "all interleavings of exchange, farm, notices, answers and resolutions, all messages, all spellings of pool ids", "why_tests_cant": "Each contract's tests mock the other one; the interleavings are unbounded.", "anchors": ["mock-boost-farming/src/token_receiver.rs: mft_on_transfer", "mock-boost-farming/src/actions_of_farmer_seed.rs", "ref-exchange/src/multi_fungible_token.rs: mft_transfer_call, mft_resolve_transfer"]}
{"id": "C106", "title": "Rates, prices and staked shares as shown", "statement": "list_rated_tokens shows exactly the registered rates, their last update and whether it is at most 24 hours old; list_degen_tokens and batch_get_degen_tokens show price, update and whether it is recent enough for its oracle. The rates and prices shown, and 1 for rated tokens not shown, are those the pools use; a pool checks exactly that they are shown as valid, and if not it quotes, trades and pays out by amounts nothing. The value shown for a degen pool is what its balances are worth, at most one dollar per token too low. get_shadow_records shows the shares staked in farm and lending contract; batch_views shows what the single views show.", "quantifier": "all states of the exchange, all times, all pools and tokens, all trades and withdrawals", "why_tests_cant": "Validity depends on the clock and on every oracle's setting; the tests look at a few fixed times.", "anchors": ["ref-exchange/src/views.rs: list_rated_tokens, list_degen_tokens, batch_get_degen_tokens, get_degen_pool_tvl, get_shadow_records, batch_views", "ref-exchange/src/rated_swap/rate.rs: are_actual", "ref-exchange/src/degen_swap/degen.rs: is_price_valid"]}
{"id": "C107", "title": "Every event changes a pool by pool operations alone, and shares of simple pools keep their value", "statement": "Whatever happens to the exchange, each pool changes exactly as by a list of pool operations (trades, liquidity, share transfers, settings) that the event stands for: the trades of a chain that name the pool, in order and with the exchange's fee, the steps of a zap that name it, the operation of the call - and by nothing else. Over any history the root of the product of a simple pool's reserves per share falls by at most n/m, where n counts the liquidity changes and m is the smallest supply in the meantime; without liquidity changes it never falls.", "quantifier": "all states, all events including callbacks, zaps, token messages and oracle answers, all pools, histories of any length", "why_tests_cant": "The path from a call to a pool runs through chains, messages, callbacks and resolutions; tests follow a few of them and never compare the whole pool.", "anchors": ["ref-exchange/src/lib.rs: internal_pool_swap, internal_execute_actions, add_liquidity, remove_liquidity", "ref-exchange/src/token_receiver.rs: ft_on_transfer, internal_direct_actions", "ref-exchange/src/multi_fungible_token.rs", "ref-exchange/src/simple_pool.rs"]}
{"id": "C108", "title": "The invariant per share of a stable pool falls only by rounding, over any history", "statement": "Through any sequence of trades, deposits, withdrawals of shares and of given tokens, share transfers and fee changes at one amplification, with balances that stay even and trades that charge at least one unit, the exact StableSwap invariant per share of a stable pool falls by at most k/M, where M is the smallest supply in the meantime and k adds up 2 for each trade and deposit, 1 for each withdrawal of shares and 2+Q for each withdrawal of given tokens (Q bounds the invariant per share). The shares minted to the exchange and referrals for their part of the fees are counted. The same bound holds between the invariants the contract computes.", "quantifier": "all reachable stable pools, all operations, callers, fees below 100 percent and times, histories of any length; balances even in the sense of C66 after each trade, deposit and withdrawal of given tokens, each trade as in C60", "why_tests_cant": "The loss is a few units of 10^-18 per operation; only a proof excludes that some sequence of operations adds it up faster.", "anchors": ["ref-exchange/src/stable_swap/mod.rs: add_liquidity, remove_liquidity_by_shares, remove_liquidity_by_tokens, swap, distribute_admin_fee", "ref-exchange/src/stable_swap/math.rs: compute_lp_amount_for_deposit, compute_lp_amount_for_withdraw, compute_d, compute_y, swap_to"]}
{"id": "C109", "title": "The settings, fees and lists shown are those applied", "statement": "Exactly the owner and the guardians shown by metadata may stop the exchange and exactly the owner shown may start it again. Calls that involve a token on the frozen list shown fail. The tokens shown for a user are those with a deposit entry, and a trade without attached NEAR uses only tokens that are shown for the user, shown as whitelisted or end with a shown postfix. The pages of referrals and of value limits show every entry exactly once. A trade with a simple pool gives the amount computed from the reserves with the fee shown by get_pool_fee, charges the protocol fee shown, and credits a referral exactly if it is listed, at the rate listed. The supply shown for pool shares is the sum of the balances shown for the registered holders.", "quantifier": "all reachable states, all callers, tokens, pools, referrals and amounts, all orders in which the keys of a map are listed and all pages", "why_tests_cant": "Views and calls read the settings at different places; a test compares them in a few states.", "anchors": ["ref-exchange/src/views.rs: metadata, get_guardians, get_pool_fee, list_referrals, get_frozenlist_tokens, get_whitelisted_tokens, get_user_whitelisted_tokens, get_pool_limit_paged", "ref-exchange/src/owner.rs: get_owner, change_state", "ref-exchange/src/multi_fungible_token.rs: mft_balance_of, mft_total_supply, mft_has_registered, mft_metadata"]}
{"id": "C110", "title": "Stored prices are what the oracles showed between question and answer", "statement": "With the price oracle, the pyth contract and the rated tokens of the repository as oracles: every stored price of a degen token was shown, by the feed and the contract the token was registered to read when somebody asked for an update, at a moment after that question and before the answer was stored; while the feed is never changed it is a price of that feed. Every stored rate is the initial one or was shown by the sources of the rate registered when it was asked for. When the oracle holds a usable price, the update of anybody, answered and delivered at once, stores exactly that price, which is then valid, and changes nothing else.", "quantifier": "all histories of registrations, settings, price changes in the oracles, single and batch updates by anybody, answers and deliveries in any order and with any delay", "why_tests_cant": "Questions and answers of several updates interleave with changes of settings and of prices in other contracts; tests run one update at a time.", "anchors": ["ref-exchange/src/lib.rs: update_token_rate, update_token_rate_callback, batch_update_degen_token_price, update_degen_token_price, update_degen_token_price_callback", "ref-exchange/src/degen_swap/degen.rs: internal_batch_update_degen_token_price", "ref-exchange/src/degen_swap/price_oracle.rs, pyth_oracle.rs: async_update, set_price, batch callbacks", "mock-price-oracle/src/lib.rs", "mock-pyth/src/lib.rs", "test-rated-token/src/lib.rs"]}
