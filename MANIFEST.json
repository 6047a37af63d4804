{
 "claims": [
  {
   "property": "C01",
   "status": "partial",
   "theorems": [
    "C01_solvent_partial",
    "C01_solvent_rounding",
    "C01_rounding_small",
    "C01_rounding_exists",
    "C01_deployed_starts",
    "C01_careless_owner_refuted",
    "C01_decimals_refuted"
   ],
   "note": "for tokens with at most 18 (24 in rated and degen pools) decimals, all interleavings, proved for a careful owner: one who retrieves only surplus and does not change the wrapped-NEAR token during an unwrapping; without that care it is refuted; for tokens with more decimals it is refuted and replaced by the exact bound: the shortfall is at most the sum, over withdrawals of chosen amounts, of the part of the amount below the precision of the pool, and this bound is reached"
  },
  {
   "property": "C02",
   "status": "proved",
   "theorems": [
    "C02_simple_supply_is_sum",
    "C02_stable_supply_is_sum"
   ],
   "note": "per pool, over all histories of pool operations, for the four pool kinds"
  },
  {
   "property": "C03",
   "status": "proved",
   "theorems": [
    "C03_swap_never_drains",
    "C03_swap_by_output_never_drains",
    "C03_reserves_positive_iff_shares"
   ],
   "note": ""
  },
  {
   "property": "C04",
   "status": "proved",
   "theorems": [
    "C04_swap_product",
    "C04_swap_by_output_product",
    "C04_trade_never_rejected"
   ],
   "note": ""
  },
  {
   "property": "C05",
   "status": "proved",
   "theorems": [
    "C05_no_profit",
    "C05_round_trip"
   ],
   "note": ""
  },
  {
   "property": "C06",
   "status": "proved",
   "theorems": [
    "C06_charge_is_sufficient",
    "C06_charge_is_tight"
   ],
   "note": ""
  },
  {
   "property": "C07",
   "status": "proved",
   "theorems": [
    "C07_add_then_remove",
    "C07_takes_at_most_offered",
    "C07_no_dilution"
   ],
   "note": ""
  },
  {
   "property": "C08",
   "status": "proved",
   "theorems": [
    "C08_swap_share_value",
    "C08_swap_by_output_share_value"
   ],
   "note": ""
  },
  {
   "property": "C09",
   "status": "proved",
   "theorems": [
    "C09_redemption_pro_rata",
    "C09_last_holder_takes_all"
   ],
   "note": ""
  },
  {
   "property": "C10",
   "status": "proved",
   "theorems": [
    "C10_swap_min_out",
    "C10_swap_by_output_max_in",
    "C10_remove_min_amounts",
    "C07_takes_at_most_offered",
    "C10_stable_swap_min_out",
    "C10_stable_add_min_shares",
    "C10_stable_remove_min_amounts",
    "C10_stable_remove_tokens_max_burn",
    "C10_actions_limits",
    "C10_add_liquidity",
    "C10_add_stable_liquidity",
    "C10_remove_liquidity",
    "C10_remove_by_tokens"
   ],
   "note": "pool level for the four pool kinds and exchange level for every call; a list of minimum amounts shorter than the pool leaves the other tokens unchecked, as in the code"
  },
  {
   "property": "C100",
   "status": "proved",
   "theorems": [
    "C100_refines",
    "C100_solvent",
    "C100_pays",
    "C100_returned",
    "C100_kept",
    "C100_reward"
   ],
   "note": "the token contract is mock-wnear; C100_reward while the farm is running and within the time bound of its u32 clock"
  },
  {
   "property": "C101",
   "status": "partial",
   "theorems": [
    "C101_reasons",
    "C101_holder_decides_refuted"
   ],
   "note": "C101_reasons lists every way a token gets on the list; the full statement is refuted: mft_transfer puts an unapproved token on anybody's list and uses up the storage the receiver paid for"
  },
  {
   "property": "C102",
   "status": "proved",
   "theorems": [
    "C102_calls",
    "C102_messages"
   ],
   "note": ""
  },
  {
   "property": "C103",
   "status": "proved",
   "theorems": [
    "C103_exchange",
    "C103_exchange_apart",
    "C103_farming",
    "C103_boost",
    "C103_wide_pools"
   ],
   "note": "C103_wide_pools: pool ids that agree modulo 2^32 would share their entries"
  },
  {
   "property": "C104",
   "status": "proved",
   "theorems": [
    "C104_farms_apart",
    "C104_boost_reads",
    "C104_farming_reads",
    "C104_names_one",
    "C104_seeds_apart",
    "C104_seeds_return",
    "C104_new_type",
    "C104_boost_seeds_apart"
   ],
   "note": ""
  },
  {
   "property": "C105",
   "status": "proved",
   "theorems": [
    "C105_refines",
    "C105_backed",
    "C105_ids",
    "C105_accepted",
    "C105_kept",
    "C105_returned",
    "C105_stays"
   ],
   "note": ""
  },
  {
   "property": "C106",
   "status": "proved",
   "theorems": [
    "C106_rated",
    "C106_rated_shown",
    "C106_rated_used",
    "C106_rated_valid",
    "C106_rated_refused",
    "C106_degen",
    "C106_degen_none_shown",
    "C106_degen_chosen",
    "C106_degen_used",
    "C106_degen_valid",
    "C106_degen_refused",
    "C106_value",
    "C106_limit",
    "C106_shadow",
    "C106_batch"
   ],
   "note": "list_degen_tokens shows nothing while a registered token has no price (C106_degen_none_shown)"
  },
  {
   "property": "C107",
   "status": "proved",
   "theorems": [
    "C107_refines",
    "C107_untouched",
    "C107_value",
    "C107_trades"
   ],
   "note": "the value statements assume the exchange was not deployed with a protocol fee above 100 percent"
  },
  {
   "property": "C108",
   "status": "proved",
   "theorems": [
    "C108_value",
    "C108_computed",
    "C108_exchange"
   ],
   "note": "the conditions on balances and fees are part of the statement; C60_zero_fee_refuted and C66_uneven_refuted show that they cannot be dropped"
  },
  {
   "property": "C109",
   "status": "proved",
   "theorems": [
    "C109_stop",
    "C109_frozen",
    "C109_own",
    "C109_traded",
    "C109_map_page",
    "C109_fees",
    "C109_shares",
    "C109_worth"
   ],
   "note": "the order of the keys of a map is an argument of the view"
  },
  {
   "property": "C11",
   "status": "proved",
   "theorems": [
    "C11_integer_sqrt_exact",
    "C11_integer_sqrt_sound",
    "C11_loop_terminates"
   ],
   "note": ""
  },
  {
   "property": "C110",
   "status": "proved",
   "theorems": [
    "C110_refines",
    "C110_degen_source",
    "C110_degen_steady",
    "C110_rate_source",
    "C110_refresh_price",
    "C110_refresh_pyth",
    "C110_replaced_feed_refuted"
   ],
   "note": "a feed that is replaced while a question is in flight still answers it: C110_replaced_feed_refuted, C110_old_decimals_ex"
  },
  {
   "property": "C12",
   "status": "proved",
   "theorems": [
    "C12_fee_split",
    "C12_fee_split_by_output"
   ],
   "note": ""
  },
  {
   "property": "C13",
   "status": "proved",
   "theorems": [
    "C13_quote_equals_execution",
    "C13_quote_by_output_equals_execution",
    "C13_stable_quote_equals_execution",
    "C13_stable_execution_is_quoted",
    "C13_stable_add_is_predicted",
    "C13_stable_remove_tokens_is_predicted",
    "C13_stable_remove_shares_is_predicted"
   ],
   "note": "for stable pools with an outgoing token of more than 18 decimals only execution-implies-quote (the execution converts fees for the log, which may overflow)"
  },
  {
   "property": "C14",
   "status": "proved",
   "theorems": [
    "C14_execute_actions",
    "C14_conserved",
    "C14_swap",
    "C14_in_va"
   ],
   "note": ""
  },
  {
   "property": "C15",
   "status": "proved",
   "theorems": [
    "C15_output_swaps_paid"
   ],
   "note": ""
  },
  {
   "property": "C16",
   "status": "partial",
   "theorems": [
    "C16_add_conserves",
    "C16_remove_shares_conserves",
    "C16_swap_conserves",
    "C16_remove_tokens_rounding",
    "C16_remove_tokens_conserves_partial",
    "C16_remove_tokens_conserves_refuted"
   ],
   "note": "holds except for remove_liquidity_by_tokens of a token with more than 18 decimals, where it is false: the amount is paid exactly but subtracted rounded down; the loss is bounded by the part rounded away"
  },
  {
   "property": "C17",
   "status": "proved",
   "theorems": [
    "C17_swap_not_past_curve",
    "C17_stable_reserves_above_curve"
   ],
   "note": "D is the value the contract computes"
  },
  {
   "property": "C18",
   "status": "proved",
   "theorems": [
    "C18_remove_shares_min_reserve",
    "C18_remove_tokens_min_reserve",
    "C18_swap_min_reserve"
   ],
   "note": ""
  },
  {
   "property": "C19",
   "status": "proved",
   "theorems": [
    "C19_amp_bounded",
    "C19_amp_is_used",
    "C19_amp_monotone",
    "C19_amp_target_after_stop",
    "C19_ramp",
    "C19_stop_freezes",
    "C19_only_ramps_change_amp",
    "C19_ramps_a_day_apart"
   ],
   "note": ""
  },
  {
   "property": "C20",
   "status": "proved",
   "theorems": [
    "C20_deposit_shares_bounded",
    "C20_first_deposit",
    "C20_withdraw_shares_bounded",
    "C20_swap_admin_shares_bounded",
    "C20_deposit_shares_exact",
    "C20_withdraw_shares_exact"
   ],
   "note": ""
  },
  {
   "property": "C21",
   "status": "partial",
   "theorems": [
    "C21_swap_needs_fresh_rates",
    "C21_remove_tokens_needs_fresh_rates",
    "C21_first_deposit_needs_fresh_rates_partial",
    "C21_deposit_needs_fresh_rates_refuted",
    "C21_swap_prices_recent",
    "C21_remove_tokens_prices_recent",
    "C21_first_deposit_prices_recent_partial",
    "C21_stored_rate_has_source",
    "C21_stored_degen_price_has_source",
    "C21_exchange_history",
    "C21_exchange_rate",
    "C21_exchange_degen",
    "C21_exchange_swap"
   ],
   "note": "false for deposits into a non-empty pool: only the first deposit asserts freshness; proved for swaps, withdrawals by tokens and first deposits, down to the oracle answers that produced each stored price"
  },
  {
   "property": "C22",
   "status": "proved",
   "theorems": [
    "C22_rated_swap_conserves"
   ],
   "note": ""
  },
  {
   "property": "C23",
   "status": "proved",
   "theorems": [
    "C23_deposit"
   ],
   "note": ""
  },
  {
   "property": "C24",
   "status": "proved",
   "theorems": [
    "C24_failure_recredits",
    "C24_success_credits_nothing",
    "C24_callback_at_most_once",
    "C24_withdraw_schedules"
   ],
   "note": ""
  },
  {
   "property": "C25",
   "status": "proved",
   "theorems": [
    "C25_claim",
    "C25_entries_change_only_by_claims_and_failures",
    "C25_paid_exactly_once"
   ],
   "note": ""
  },
  {
   "property": "C26",
   "status": "proved",
   "theorems": [
    "C26_call",
    "C26_deposit",
    "C26_history",
    "C26_owner_refuted"
   ],
   "note": "for the account that calls, is deposited to or is registered; donation_token credits the owner's account without the check, so that account can be left uncovered (C26_owner_refuted)"
  },
  {
   "property": "C27",
   "status": "proved",
   "theorems": [
    "C27_unregister",
    "C27_nothing_forfeited"
   ],
   "note": ""
  },
  {
   "property": "C28",
   "status": "proved",
   "theorems": [
    "C28_representation_irrelevant",
    "C28_moved",
    "C28_stored_versions"
   ],
   "note": ""
  },
  {
   "property": "C29",
   "status": "partial",
   "theorems": [
    "C29_calls_fail",
    "C29_transfers_fail_partial",
    "C29_untouched",
    "C29_incoming",
    "C29_reserves_history",
    "C29_incoming_refuted"
   ],
   "note": "all calls and messages naming the token fail and reserves of it never change; zaps and instant swaps sent with the frozen token but not naming it still move it, and mft transfers of deposits do not check the list (C29_incoming_refuted)"
  },
  {
   "property": "C30",
   "status": "partial",
   "theorems": [
    "C30_paused_call_partial",
    "C30_paused_transfer",
    "C30_resume",
    "C30_history",
    "C30_sync_refuted"
   ],
   "note": "all calls except synchronising averages and liquidations by the lending contract fail while paused; sync_pool_twap_record works while paused (C30_sync_refuted)"
  },
  {
   "property": "C31",
   "status": "proved",
   "theorems": [
    "C31_privileged",
    "C31_for_owner",
    "C31_guardians",
    "C31_guardians_history",
    "C31_history"
   ],
   "note": ""
  },
  {
   "property": "C32",
   "status": "proved",
   "theorems": [
    "C32_transfer",
    "C32_transfer_call",
    "C32_resolve",
    "C32_total"
   ],
   "note": ""
  },
  {
   "property": "C33",
   "status": "partial",
   "theorems": [
    "C33_locked_partial",
    "C33_deployed",
    "C33_calls",
    "C33_donation_refuted"
   ],
   "note": "holds in all executions in which nobody donates staked shares; donation_share does not look at the shadows, which refutes the full statement"
  },
  {
   "property": "C34",
   "status": "proved",
   "theorems": [
    "C34_liquidation"
   ],
   "note": ""
  },
  {
   "property": "C35",
   "status": "proved",
   "theorems": [
    "C35_donation_token",
    "C35_donation_share"
   ],
   "note": ""
  },
  {
   "property": "C36",
   "status": "proved",
   "theorems": [
    "C36_history_bounded",
    "C36_records_spaced",
    "C36_average_exact",
    "C36_average_between",
    "C36_view_full"
   ],
   "note": "spacing is at least the smallest interval that was in force while the history was made"
  },
  {
   "property": "C37",
   "status": "proved",
   "theorems": [
    "C37_client_echo_exact",
    "C37_extend_exact",
    "C37_remove_exact",
    "C37_whitelisted_token_exact"
   ],
   "note": ""
  },
  {
   "property": "C38",
   "status": "proved",
   "theorems": [
    "C38_permanent",
    "C38_consecutive"
   ],
   "note": ""
  },
  {
   "property": "C39",
   "status": "proved",
   "theorems": [
    "C39_step",
    "C39_monotone"
   ],
   "note": ""
  },
  {
   "property": "C40",
   "status": "proved",
   "theorems": [
    "C40_instant_swap",
    "C40_deposits_not_read",
    "C40_failure_returns"
   ],
   "note": ""
  },
  {
   "property": "C41",
   "status": "proved",
   "theorems": [
    "C41_hot_zap"
   ],
   "note": ""
  },
  {
   "property": "C42",
   "status": "proved",
   "theorems": [
    "C42_farm_conservation"
   ],
   "note": ""
  },
  {
   "property": "C43",
   "status": "proved",
   "theorems": [
    "C43_claims_covered",
    "C43_claim_never_short"
   ],
   "note": ""
  },
  {
   "property": "C44",
   "status": "proved",
   "theorems": [
    "C44_seed_accounting"
   ],
   "note": ""
  },
  {
   "property": "C45",
   "status": "proved",
   "theorems": [
    "C45_rewards_solvent",
    "C45_transfer_never_short"
   ],
   "note": ""
  },
  {
   "property": "C46",
   "status": "proved",
   "theorems": [
    "C46_emission_bounded"
   ],
   "note": ""
  },
  {
   "property": "C47",
   "status": "proved",
   "theorems": [
    "C47_pro_rata",
    "C47_splitting_never_pays"
   ],
   "note": "stated per farm for a constant total stake; the bound on rounding is one unit plus k*s/10^24 after k distributions"
  },
  {
   "property": "C48",
   "status": "partial",
   "theorems": [
    "C48_stake_withdrawable_refuted",
    "C48_withdrawable_after_claim_partial",
    "C48_withdrawable"
   ],
   "note": "false in general: rps entries survive storage_unregister while the counter restarts, the full withdrawal then panics; proved for every farmer who did not unregister, if the farms of the seed have an interval and their rewards fit (C48_withdrawable)"
  },
  {
   "property": "C49",
   "status": "partial",
   "theorems": [
    "C49_reward_restored_partial",
    "C49_seed_restored_partial",
    "C49_restored_in_all_interleavings_refuted"
   ],
   "note": "false if the farmer unregisters between request and callback; proved otherwise"
  },
  {
   "property": "C50",
   "status": "proved",
   "theorems": [
    "C50_lifecycle",
    "C50_ended_accepts_no_reward",
    "C50_ids_fresh"
   ],
   "note": ""
  },
  {
   "property": "C51",
   "status": "proved",
   "theorems": [
    "C51_displayed_is_claimed"
   ],
   "note": ""
  },
  {
   "property": "C52",
   "status": "proved",
   "theorems": [
    "C52_paused_user_calls_fail",
    "C52_paused_transfers_fail",
    "C52_owner_only",
    "C52_only_owner_changes_state"
   ],
   "note": ""
  },
  {
   "property": "C53",
   "status": "proved",
   "theorems": [
    "C53_only_own_withdrawals"
   ],
   "note": ""
  },
  {
   "property": "C54",
   "status": "proved",
   "theorems": [
    "C54_deposits"
   ],
   "note": ""
  },
  {
   "property": "C55",
   "status": "proved",
   "theorems": [
    "C55_used_up_not_shown",
    "C55_virtual_account",
    "C55_own_deposits",
    "C55_instant_swap",
    "C55_omitted_amount_unpredicted"
   ],
   "note": ""
  },
  {
   "property": "C56",
   "status": "proved",
   "theorems": [
    "C56_used_up_not_shown",
    "C56_hot_zap"
   ],
   "note": ""
  },
  {
   "property": "C57",
   "status": "proved",
   "theorems": [
    "C57_get_return",
    "C57_get_return_by_output",
    "C57_add_simple",
    "C57_add_stable",
    "C57_remove",
    "C57_remove_by_tokens",
    "C57_balances"
   ],
   "note": ""
  },
  {
   "property": "C58",
   "status": "proved",
   "theorems": [
    "C58_shares"
   ],
   "note": ""
  },
  {
   "property": "C59",
   "status": "proved",
   "theorems": [
    "C59_computed_not_below_exact"
   ],
   "note": ""
  },
  {
   "property": "C60",
   "status": "partial",
   "theorems": [
    "C60_trade_keeps_exact_invariant_partial",
    "C60_trades_keep_exact_invariant_partial",
    "C60_zero_fee_refuted",
    "C60_round_trip_refuted"
   ],
   "note": "holds for trades whose fee is at least one unit of the kept 18 decimals and that leave no balance tiny compared with the invariant; false by one unit of rounding in a pool without fee"
  },
  {
   "property": "C61",
   "status": "proved",
   "theorems": [
    "C61_removal_keeps_invariant_per_share"
   ],
   "note": ""
  },
  {
   "property": "C62",
   "status": "proved",
   "theorems": [
    "C62_share_id",
    "C62_shadow_id",
    "C62_ids_distinct",
    "C62_ids_read"
   ],
   "note": "several ids name the same pool (C62_id_unique_refuted), which the statement allows"
  },
  {
   "property": "C63",
   "status": "partial",
   "theorems": [
    "C63_step",
    "C63_history",
    "C63_deployed",
    "C63_observed_first_partial",
    "C63_instant_swaps_observe",
    "C63_zap_unobserved_refuted"
   ],
   "note": "records are histories of observations in every reachable state; every call except liquidations, fee removals and the liquidity steps of hot zaps observes first; a hot zap changes a recorded pool without observation (refuted)"
  },
  {
   "property": "C64",
   "status": "partial",
   "theorems": [
    "C64_withdraw",
    "C64_withdraw_whole",
    "C64_claim",
    "C64_old_entry_refuted"
   ],
   "note": "proved for entries of the current format and for whole withdrawals; a part of an old-format entry cannot be withdrawn when the NEAR of the account is exactly its storage (refuted)"
  },
  {
   "property": "C65",
   "status": "proved",
   "theorems": [
    "C65_redeem",
    "C65_redeem_simple",
    "C65_floor",
    "C65_exit"
   ],
   "note": "without the least balances of stable pools it is false (C65_sole_holder_refuted)"
  },
  {
   "property": "C66",
   "status": "proved",
   "theorems": [
    "C66_computed_exact"
   ],
   "note": "without the condition on the spread it is false (C66_uneven_refuted)"
  },
  {
   "property": "C67",
   "status": "proved",
   "theorems": [
    "C67_trade_pays_exact",
    "C67_even_pool"
   ],
   "note": ""
  },
  {
   "property": "C68",
   "status": "proved",
   "theorems": [
    "C68_protocol_fee",
    "C68_pool_fees"
   ],
   "note": "deployment itself does not bound the protocol's part (C68_deployed_refuted)"
  },
  {
   "property": "C69",
   "status": "proved",
   "theorems": [
    "C69_settings",
    "C69_oracles",
    "C69_pools"
   ],
   "note": ""
  },
  {
   "property": "C70",
   "status": "proved",
   "theorems": [
    "C70_call",
    "C70_kept",
    "C70_transfer",
    "C70_shadow_callback"
   ],
   "note": "swaps and stake removals keep whatever is attached (C70_swap_refuted)"
  },
  {
   "property": "C71",
   "status": "partial",
   "theorems": [
    "C71_backed"
   ],
   "note": "the condition on refused stakes is not guaranteed by the code: two stakes at once break it (C71_race_refuted); storage that no user is charged for is not counted"
  },
  {
   "property": "C72",
   "status": "proved",
   "theorems": [
    "C72_call",
    "C72_only_own",
    "C72_backed",
    "C72_affordable",
    "C72_withdrawable",
    "C72_leave"
   ],
   "note": ""
  },
  {
   "property": "C73",
   "status": "proved",
   "theorems": [
    "C73_farmers",
    "C73_rewards"
   ],
   "note": ""
  },
  {
   "property": "C74",
   "status": "proved",
   "theorems": [
    "C74_covered",
    "C74_uncovered"
   ],
   "note": "withdrawing a stake claims as well and no check follows, so storage can be left unpaid (C74_always_covered_refuted)"
  },
  {
   "property": "C75",
   "status": "proved",
   "theorems": [
    "C75_displayed",
    "C75_adds_up"
   ],
   "note": "without stakes the displayed unclaimed reward goes to the beneficiary (C75_unclaimed_refuted)"
  },
  {
   "property": "C76",
   "status": "proved",
   "theorems": [
    "C76_claim",
    "C76_stake",
    "C48_withdrawable",
    "C76_no_interval_locks"
   ],
   "note": "the hypotheses are needed: C76_sane_terms_refuted, C76_ready_refuted, C48_stake_withdrawable_refuted"
  },
  {
   "property": "C77",
   "status": "proved",
   "theorems": [
    "C77_split_sale",
    "C77_split_purchase"
   ],
   "note": ""
  },
  {
   "property": "C78",
   "status": "proved",
   "theorems": [
    "C78_larger_sale",
    "C78_larger_purchase",
    "C78_price_of_size",
    "C78_after_others",
    "C78_after_opposite"
   ],
   "note": ""
  },
  {
   "property": "C79",
   "status": "proved",
   "theorems": [
    "C79_totals",
    "C79_tokens",
    "C79_counters",
    "C79_near"
   ],
   "note": ""
  },
  {
   "property": "C80",
   "status": "proved",
   "theorems": [
    "C80_farm",
    "C80_removed",
    "C80_rewards",
    "C80_payable",
    "C80_claim",
    "C80_once"
   ],
   "note": ""
  },
  {
   "property": "C81",
   "status": "proved",
   "theorems": [
    "C81_free",
    "C81_lock",
    "C81_lock_free",
    "C81_unlock",
    "C81_else",
    "C81_own",
    "C81_rewards_kept",
    "C81_boost_bounds",
    "C81_boost_mono",
    "C81_lock_state",
    "C81_penalty"
   ],
   "note": ""
  },
  {
   "property": "C82",
   "status": "proved",
   "theorems": [
    "C82_step",
    "C82_rate",
    "C82_gone"
   ],
   "note": ""
  },
  {
   "property": "C83",
   "status": "proved",
   "theorems": [
    "C83_access",
    "C83_tokens",
    "C83_settings",
    "C83_settings_tokens",
    "C83_limits",
    "C83_terms",
    "C83_terms_tokens",
    "C83_new_farm"
   ],
   "note": ""
  },
  {
   "property": "C84",
   "status": "proved",
   "theorems": [
    "C84_near",
    "C84_register",
    "C84_unregister"
   ],
   "note": ""
  },
  {
   "property": "C85",
   "status": "partial",
   "theorems": [
    "C85_relock_refuted",
    "C85_expired",
    "C85_no_exit",
    "C85_forfeit_refuted",
    "C85_removed_by",
    "C85_daily_stuck",
    "C85_daily_refuted",
    "C85_late_refuted",
    "C85_slash_refuted",
    "C85_slash"
   ],
   "note": "every part is false of the code, shown by reachable states; proved instead: who can cause it and when it cannot happen. Locking again underflows when the earlier longer lock has run out, an expired lock cannot be ended (unlock_and_withdraw_seed is commented out), removing a farm gives unclaimed rewards to the beneficiary, a late deposit pays for the past, an overdue farm freezes its seed for ever"
  },
  {
   "property": "C86",
   "status": "proved",
   "theorems": [
    "C86_claim",
    "C86_free",
    "C86_lock_power",
    "C86_lock",
    "C86_lock_free",
    "C86_unlock"
   ],
   "note": "for every behaviour of the two floating point expressions that is monotone and maps 0 to 0"
  },
  {
   "property": "C87",
   "status": "proved",
   "theorems": [
    "C87_unclaimed",
    "C87_farm",
    "C87_storage"
   ],
   "note": ""
  },
  {
   "property": "C88",
   "status": "proved",
   "theorems": [
    "C88_books_agree",
    "C88_settled",
    "C88_never_overcounted",
    "C88_report",
    "C88_excess_kept",
    "C88_liquidation_locks_refuted",
    "C88_liquidation_overcount_refuted"
   ],
   "note": "The two refuted theorems are the witnesses the last sentence of the property speaks of."
  },
  {
   "property": "C89",
   "status": "proved",
   "theorems": [
    "C89_value",
    "C89_add",
    "C89_zap",
    "C89_room",
    "C89_trade_refuted",
    "C89_stale_refuted"
   ],
   "note": "The two refuted theorems are the witnesses the last sentence of the property speaks of."
  },
  {
   "property": "C90",
   "status": "proved",
   "theorems": [
    "C90_price",
    "C90_rated_price",
    "C90_not_below_exact",
    "C90_rated_not_below_exact",
    "C90_redemption_pays",
    "C90_redemption_keeps_price",
    "C90_trades_refuted"
   ],
   "note": "The refuted theorem is the witness the last sentence of the property speaks of."
  },
  {
   "property": "C91",
   "status": "proved",
   "theorems": [
    "C91_counters",
    "C91_swap",
    "C91_swap_by_output"
   ],
   "note": "one action per call; pools with volume counters far from 2^256; a pool with a registered average needs one redeemable share (C65)"
  },
  {
   "property": "C92",
   "status": "proved",
   "theorems": [
    "C92_add",
    "C92_add_stable",
    "C92_remove_by_tokens"
   ],
   "note": "the amounts must be recorded in the present account format; add_stable in pools without a value limit"
  },
  {
   "property": "C93",
   "status": "proved",
   "theorems": [
    "C93_instant",
    "C93_virtual",
    "C93_own",
    "C93_zap"
   ],
   "note": "pools without a registered average and volume counters far from 2^256; no echo message; a zap without registered referral, asking for no more than predicted"
  },
  {
   "property": "C94",
   "status": "proved",
   "theorems": [
    "C94_page",
    "C94_pages",
    "C94_page_shown",
    "C94_pool",
    "C94_unpriced",
    "C94_terms",
    "C94_backed",
    "C94_tokens",
    "C94_tokens_refuted",
    "C94_storage",
    "C94_usage",
    "C94_leave",
    "C94_assets",
    "C94_lists",
    "C94_average"
   ],
   "note": "the statement names the two exceptions: old-format entries (C94_tokens_refuted is the witness) and averages refused as a whole (in C94_assets)"
  },
  {
   "property": "C95",
   "status": "proved",
   "theorems": [
    "C95_kind",
    "C95_rated_recorded",
    "C95_unrecorded",
    "C95_trade",
    "C95_add",
    "C95_remove",
    "C95_detail",
    "C95_expired_refuted"
   ],
   "note": "into an empty pool the view for given rates demands fresh recorded ones (C95_add asks for a supply); C95_expired_refuted is the witness for the last sentence"
  },
  {
   "property": "C96",
   "status": "proved",
   "theorems": [
    "C96_backed",
    "C96_surplus",
    "C96_unwrap",
    "C96_wrap",
    "C96_own",
    "C96_transfer",
    "C96_answer",
    "C96_leave",
    "C96_storage"
   ],
   "note": "the fungible token of near-contract-standards is modelled as published; it is not in /repo"
  },
  {
   "property": "C97",
   "status": "proved",
   "theorems": [
    "C97_refines",
    "C97_solvent",
    "C97_returned",
    "C97_pays",
    "C97_unwraps",
    "C97_answered",
    "C97_arrives"
   ],
   "note": "tokens kept exactly by all pools and a careful owner, as in C01_solvent_partial; arrivals while the supply and what is under way fit 128 bits"
  },
  {
   "property": "C98",
   "status": "proved",
   "theorems": [
    "C98_refines",
    "C98_backed",
    "C98_one_seed",
    "C98_paid",
    "C98_pays",
    "C98_accepted",
    "C98_kept",
    "C98_returned"
   ],
   "note": "the farm calls the exchange only to pay out stakes; C98_paid and C98_pays for pool ids below 2^64, C98_returned for senders other than the farm with an account at the exchange"
  },
  {
   "property": "C99",
   "status": "proved",
   "theorems": [
    "C99_exit"
   ],
   "note": "for farms with sane terms, tokens without transfer fee and not frozen, a pool that keeps its minimum balances (stable pools), and storage paid for at the exchange; the balance of the farm at the exchange is what C98 proves"
  }
 ]
}