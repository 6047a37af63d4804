(** * The exchange contract.
    /repo/ref-exchange/src: lib.rs, account_deposit.rs, account_lostfound.rs, token_receiver.rs,
    multi_fungible_token.rs, donation.rs, shadow_actions.rs, storage_impl.rs, owner.rs, swap_volume.rs,
    unit_lpt_cumulative_infos.rs, action.rs, utils.rs.
    Simplifications: gas, logs, events and memo strings are dropped.  Persistent collections are finite
    maps.  The storage used by a call is not computed: how many yoctoNEAR of storage a call takes or
    frees, and whether the contract has spare NEAR, are arbitrary inputs of each call ([Env]).
    ValidAccountId is any string.  JSON parsing of the ft_on_transfer message is dropped, the parsed
    message is the argument.  Requests to oracles are dropped (their answers are arbitrary inputs). *)
From Coq Require Import Ascii.
From stdpp Require Import pretty.
From Verif Require Import Base SimplePool StableMath StablePool Rates Echo Twap Account Pool.

(** lib.rs:115-144: the fields of Contract that hold settings, with the pool limits
    (pool_limit_info.rs) and the echo lists (client_echo_limit.rs) kept under their own storage keys *)
Record Config := mkConfig {
  cf_owner : AccountId;
  cf_farm : AccountId;
  cf_burrow : AccountId;
  cf_admin_fee : N;
  cf_whitelist : gset string;
  cf_guardians : gset string;
  cf_running : bool;
  cf_frozen : gset string;
  cf_referrals : gmap AccountId N;
  cf_interval : N;
  cf_wnear : option AccountId;
  cf_postfix : gset string;
  cf_limits : gmap N N;
  cf_echo : EchoLists;
}.
Definition cf_set_owner (k : Config) x := mkConfig x (cf_farm k) (cf_burrow k) (cf_admin_fee k) (cf_whitelist k) (cf_guardians k) (cf_running k) (cf_frozen k) (cf_referrals k) (cf_interval k) (cf_wnear k) (cf_postfix k) (cf_limits k) (cf_echo k).
Definition cf_set_farm (k : Config) x := mkConfig (cf_owner k) x (cf_burrow k) (cf_admin_fee k) (cf_whitelist k) (cf_guardians k) (cf_running k) (cf_frozen k) (cf_referrals k) (cf_interval k) (cf_wnear k) (cf_postfix k) (cf_limits k) (cf_echo k).
Definition cf_set_burrow (k : Config) x := mkConfig (cf_owner k) (cf_farm k) x (cf_admin_fee k) (cf_whitelist k) (cf_guardians k) (cf_running k) (cf_frozen k) (cf_referrals k) (cf_interval k) (cf_wnear k) (cf_postfix k) (cf_limits k) (cf_echo k).
Definition cf_set_admin_fee (k : Config) x := mkConfig (cf_owner k) (cf_farm k) (cf_burrow k) x (cf_whitelist k) (cf_guardians k) (cf_running k) (cf_frozen k) (cf_referrals k) (cf_interval k) (cf_wnear k) (cf_postfix k) (cf_limits k) (cf_echo k).
Definition cf_set_whitelist (k : Config) x := mkConfig (cf_owner k) (cf_farm k) (cf_burrow k) (cf_admin_fee k) x (cf_guardians k) (cf_running k) (cf_frozen k) (cf_referrals k) (cf_interval k) (cf_wnear k) (cf_postfix k) (cf_limits k) (cf_echo k).
Definition cf_set_guardians (k : Config) x := mkConfig (cf_owner k) (cf_farm k) (cf_burrow k) (cf_admin_fee k) (cf_whitelist k) x (cf_running k) (cf_frozen k) (cf_referrals k) (cf_interval k) (cf_wnear k) (cf_postfix k) (cf_limits k) (cf_echo k).
Definition cf_set_running (k : Config) x := mkConfig (cf_owner k) (cf_farm k) (cf_burrow k) (cf_admin_fee k) (cf_whitelist k) (cf_guardians k) x (cf_frozen k) (cf_referrals k) (cf_interval k) (cf_wnear k) (cf_postfix k) (cf_limits k) (cf_echo k).
Definition cf_set_frozen (k : Config) x := mkConfig (cf_owner k) (cf_farm k) (cf_burrow k) (cf_admin_fee k) (cf_whitelist k) (cf_guardians k) (cf_running k) x (cf_referrals k) (cf_interval k) (cf_wnear k) (cf_postfix k) (cf_limits k) (cf_echo k).
Definition cf_set_referrals (k : Config) x := mkConfig (cf_owner k) (cf_farm k) (cf_burrow k) (cf_admin_fee k) (cf_whitelist k) (cf_guardians k) (cf_running k) (cf_frozen k) x (cf_interval k) (cf_wnear k) (cf_postfix k) (cf_limits k) (cf_echo k).
Definition cf_set_interval (k : Config) x := mkConfig (cf_owner k) (cf_farm k) (cf_burrow k) (cf_admin_fee k) (cf_whitelist k) (cf_guardians k) (cf_running k) (cf_frozen k) (cf_referrals k) x (cf_wnear k) (cf_postfix k) (cf_limits k) (cf_echo k).
Definition cf_set_wnear (k : Config) x := mkConfig (cf_owner k) (cf_farm k) (cf_burrow k) (cf_admin_fee k) (cf_whitelist k) (cf_guardians k) (cf_running k) (cf_frozen k) (cf_referrals k) (cf_interval k) x (cf_postfix k) (cf_limits k) (cf_echo k).
Definition cf_set_postfix (k : Config) x := mkConfig (cf_owner k) (cf_farm k) (cf_burrow k) (cf_admin_fee k) (cf_whitelist k) (cf_guardians k) (cf_running k) (cf_frozen k) (cf_referrals k) (cf_interval k) (cf_wnear k) x (cf_limits k) (cf_echo k).
Definition cf_set_limits (k : Config) x := mkConfig (cf_owner k) (cf_farm k) (cf_burrow k) (cf_admin_fee k) (cf_whitelist k) (cf_guardians k) (cf_running k) (cf_frozen k) (cf_referrals k) (cf_interval k) (cf_wnear k) (cf_postfix k) x (cf_echo k).
Definition cf_set_echo (k : Config) x := mkConfig (cf_owner k) (cf_farm k) (cf_burrow k) (cf_admin_fee k) (cf_whitelist k) (cf_guardians k) (cf_running k) (cf_frozen k) (cf_referrals k) (cf_interval k) (cf_wnear k) (cf_postfix k) (cf_limits k) x.

(** lib.rs:115-144 the contract; [ex_self] is env::current_account_id(), [ex_lost] the lost-and-found
    accounts (account_lostfound.rs:7), [ex_volumes] the swap volumes (swap_volume.rs, keyed by pool id as u32),
    [ex_rates] rated and degen tokens (rate.rs, degen.rs) *)
Record Exchange := mkExchange {
  ex_self : AccountId;
  ex_cfg : Config;
  ex_pools : list Pool;
  ex_accounts : gmap AccountId VAccount;
  ex_lost : gmap AccountId (gmap AccountId N);
  ex_twap : gmap N TwapInfo;
  ex_volumes : gmap N (list (N * N));
  ex_rates : RateState;
}.
Definition ex_set_self (c : Exchange) x := mkExchange x (ex_cfg c) (ex_pools c) (ex_accounts c) (ex_lost c) (ex_twap c) (ex_volumes c) (ex_rates c).
Definition ex_set_cfg (c : Exchange) x := mkExchange (ex_self c) x (ex_pools c) (ex_accounts c) (ex_lost c) (ex_twap c) (ex_volumes c) (ex_rates c).
Definition ex_set_pools (c : Exchange) x := mkExchange (ex_self c) (ex_cfg c) x (ex_accounts c) (ex_lost c) (ex_twap c) (ex_volumes c) (ex_rates c).
Definition ex_set_accounts (c : Exchange) x := mkExchange (ex_self c) (ex_cfg c) (ex_pools c) x (ex_lost c) (ex_twap c) (ex_volumes c) (ex_rates c).
Definition ex_set_lost (c : Exchange) x := mkExchange (ex_self c) (ex_cfg c) (ex_pools c) (ex_accounts c) x (ex_twap c) (ex_volumes c) (ex_rates c).
Definition ex_set_twap (c : Exchange) x := mkExchange (ex_self c) (ex_cfg c) (ex_pools c) (ex_accounts c) (ex_lost c) x (ex_volumes c) (ex_rates c).
Definition ex_set_volumes (c : Exchange) x := mkExchange (ex_self c) (ex_cfg c) (ex_pools c) (ex_accounts c) (ex_lost c) (ex_twap c) x (ex_rates c).
Definition ex_set_rates (c : Exchange) x := mkExchange (ex_self c) (ex_cfg c) (ex_pools c) (ex_accounts c) (ex_lost c) (ex_twap c) (ex_volumes c) x.

(** What a call reads of the chain: env::block_timestamp(), predecessor_account_id(),
    attached_deposit(), the cost of the storage taken or freed during the call, and whether
    account_balance() exceeds locked storage + MIN_CONTRACT_FREE_BALANCE. *)
Record Env := mkEnv {
  e_now : N; e_caller : AccountId; e_attached : N; e_grow : N; e_freed : N; e_spare : bool;
}.

(** What a call schedules. *)
Inductive Promise :=
| PSend (token receiver : AccountId) (amount : N)      (* ft_transfer then exchange_callback_post_withdraw *)
| PSendMsg (token receiver : AccountId) (amount : N)   (* ft_transfer_call then exchange_callback_post_withdraw *)
| PUnwrap (token receiver : AccountId) (amount : N)    (* near_withdraw then exchange_callback_post_withdraw_near *)
| PRetrieve (token receiver : AccountId) (amount : N)  (* ft_transfer without callback, owner.rs:30 *)
| PNear (receiver : AccountId) (amount : N)            (* transfer of NEAR *)
| PMft (token_id : string) (sender receiver : AccountId) (amount : N) (* mft_on_transfer then mft_resolve_transfer *)
| PShadow (act : ShadowAction) (sender : AccountId) (pid amount fee : N) (* on_cast/remove_shadow then callback_on_shadow *)
| PRemoveShadow (account : AccountId) (pid amount : N). (* on_remove_shadow then callback_on_burrow_liquidation *)

(** near_sdk assert_one_yocto *)
Definition one_yocto (e : Env) : option unit := ensure (e_attached e =? 1).
(** near_bindgen: a &mut self method without #[payable] rejects an attached deposit *)
Definition not_payable (e : Env) : option unit := ensure (e_attached e =? 0).

(** lib.rs:648-653 assert_contract_running *)
Definition running (c : Exchange) : option unit := ensure (cf_running (ex_cfg c)).
(** lib.rs:655-662 assert_no_frozen_tokens *)
Definition no_frozen (c : Exchange) (ts : list AccountId) : option unit :=
  ensure (forallb (fun t => negb (bool_decide (t ∈ cf_frozen (ex_cfg c)))) ts).
(** lib.rs:664-666 is_whitelisted_token *)
Definition ex_whitelisted (c : Exchange) (t : AccountId) : bool :=
  is_whitelisted_token (cf_whitelist (ex_cfg c)) (cf_postfix (ex_cfg c)) t.
(** owner.rs:492-498 assert_owner, 500-503 is_owner_or_guardians *)
Definition is_owner (c : Exchange) (e : Env) : bool := String.eqb (e_caller e) (cf_owner (ex_cfg c)).
Definition is_guard (c : Exchange) (e : Env) : bool :=
  is_owner c e || bool_decide (e_caller e ∈ cf_guardians (ex_cfg c)).
(** the guards of owner.rs in the order one yocto, caller *)
Definition owner_call (c : Exchange) (e : Env) : option unit := _ ← one_yocto e; ensure (is_owner c e).
Definition guard_call (c : Exchange) (e : Env) : option unit := _ ← one_yocto e; ensure (is_guard c e).

(** account_deposit.rs:553-557 internal_get_account, 559-562 internal_unwrap_account (both: [None] when missing) *)
Definition ex_account (c : Exchange) (a : AccountId) : option Account := into_current <$> ex_accounts c !! a.
(** account_deposit.rs:564-567 internal_unwrap_or_default_account *)
Definition ex_account_or_new (c : Exchange) (a : AccountId) : Account := default ac_new (ex_account c a).
(** self.accounts.insert *)
Definition ex_put (c : Exchange) (a : AccountId) (acc : Account) : Exchange :=
  ex_set_accounts c (<[a := VACurrent acc]> (ex_accounts c)).
(** account_deposit.rs:496-499 internal_save_account, 197-202 assert_storage_usage *)
Definition ex_save (c : Exchange) (a : AccountId) (acc : Account) : option Exchange :=
  _ ← ensure (ac_storage_usage acc <=? ac_near acc);
  Some (ex_put c a acc).

(** self.pools.get(id).expect, self.pools.replace *)
Definition ex_pool (c : Exchange) (pid : N) : option Pool := ex_pools c !! N.to_nat pid.
Definition ex_put_pool (c : Exchange) (pid : N) (p : Pool) : Exchange :=
  ex_set_pools c (<[N.to_nat pid := p]> (ex_pools c)).

(** lib.rs:670-688 internal_check_storage: the refund; the cost is [e_grow] *)
Definition check_storage (e : Env) : option (list Promise) :=
  refund ← csub (e_attached e) (e_grow e);
  Some (if 0 <? refund then [PNear (e_caller e) refund] else []).

(** AdminFees::new (admin_fee.rs:19-25) *)
Definition ex_fees (c : Exchange) : AdminFees := mkAdminFees (cf_admin_fee (ex_cfg c)) (ex_self c) None.
Definition ex_fees_ref (c : Exchange) (r : option (AccountId * N)) : AdminFees :=
  mkAdminFees (cf_admin_fee (ex_cfg c)) (ex_self c) r.
(** lib.rs:277-279: the referral and its fee, if registered *)
Definition ex_referral (c : Exchange) (r : option AccountId) : option (AccountId * N) :=
  match r with
  | Some a => match cf_referrals (ex_cfg c) !! a with Some f => Some (a, f) | None => None end
  | None => None
  end.

(** ** Cumulative share records, unit_lpt_cumulative_infos.rs *)
(** 137-146 internal_unit_share_token_amounts *)
Definition ex_unit_amounts (c : Exchange) (pid : N) : option (option (list N)) :=
  p ← ex_pool c pid;
  if 10 ^ pl_share_decimal p <? pl_supply p then
    '(_, l) ← pl_remove_liquidity p "@view" (10 ^ pl_share_decimal p) (repeat 0 (length (pl_tokens p))) true;
    Some (Some l)
  else Some None.
(** 148-156 internal_update_unit_share_cumulative_info *)
Definition ex_update_twap (c : Exchange) (e : Env) (pid : N) : option Exchange :=
  match ex_twap c !! pid with
  | None => Some c
  | Some i =>
      u ← ex_unit_amounts c pid;
      match u with
      | None => Some c
      | Some am =>
          i' ← twap_update i (nano_to_sec (e_now e)) am (cf_interval (ex_cfg c));
          Some (ex_set_twap c (<[pid := i']> (ex_twap c)))
      end
  end.
(** 161-168 register_pool_twap_record *)
Definition ex_register_twap (c : Exchange) (e : Env) (pid : N) : option Exchange :=
  _ ← guard_call c e;
  _ ← ensure (match ex_twap c !! pid with None => true | Some _ => false end);
  u ← ex_unit_amounts c pid; am ← u;
  Some (ex_set_twap c (<[pid := twap_new (nano_to_sec (e_now e)) am]> (ex_twap c))).
(** 170-175 unregister_pool_twap_record *)
Definition ex_unregister_twap (c : Exchange) (e : Env) (pid : N) : option Exchange :=
  _ ← guard_call c e;
  _ ← ex_twap c !! pid;
  Some (ex_set_twap c (delete pid (ex_twap c))).
(** 177-182 modify_cumulative_info_record_interval_sec *)
Definition ex_modify_interval (c : Exchange) (e : Env) (x : N) : option Exchange :=
  _ ← guard_call c e;
  Some (ex_set_cfg c (cf_set_interval (ex_cfg c) x)).
(** 184-189 sync_pool_twap_record *)
Definition ex_sync_twap (c : Exchange) (e : Env) (pid : N) : option Exchange :=
  _ ← not_payable e;
  i ← ex_twap c !! pid;
  u ← ex_unit_amounts c pid; am ← u;
  i' ← twap_update i (nano_to_sec (e_now e)) am (cf_interval (ex_cfg c));
  Some (ex_set_twap c (<[pid := i']> (ex_twap c))).

(** ** Swap volumes, swap_volume.rs *)
(** 47-56 internal_get_swap_volume_u256_vec_or_default; a pool's own volumes (pool.get_volumes()) are
    written by no code of this version and are zeros *)
Definition ex_volumes_of (c : Exchange) (pid : N) (p : Pool) : list (N * N) :=
  match ex_volumes c !! (pid mod W32) with
  | Some v => v
  | None => repeat (0, 0) (length (pl_tokens p))
  end.
(** 63-92 internal_update_swap_volume_u256_vec *)
Definition vol_update (v : list (N * N)) (i_in i_out : nat) (a_in a_out : N) : option (list (N * N)) :=
  '(x, y) ← v !! i_in;
  x' ← cadd W256 x a_in;
  let v1 := <[i_in := (x', y)]> v in
  '(x2, y2) ← v1 !! i_out;
  y' ← cadd W256 y2 a_out;
  Some (<[i_out := (x2, y')]> v1).
Definition ex_put_volumes (c : Exchange) (pid : N) (v : list (N * N)) : Exchange :=
  ex_set_volumes c (<[pid mod W32 := v]> (ex_volumes c)).

(** ** Creating pools, lib.rs:172-247, 693-702 internal_add_pool *)
Definition ex_add_pool (c : Exchange) (e : Env) (p : Pool) : option (Exchange * list Promise) :=
  let id := N.of_nat (length (ex_pools c)) in
  p' ← pl_share_register p (ex_self c);
  let c1 := ex_set_pools c (ex_pools c ++ [p']) in
  let c2 := ex_put_volumes c1 id (repeat (0, 0) (length (pl_tokens p'))) in
  ps ← check_storage e;
  Some (c2, ps).
(** utils.rs:116-119 check_token_duplicates *)
Definition no_duplicates (ts : list AccountId) : option unit := ensure (bool_decide (NoDup ts)).
(** lib.rs:172-180 *)
Definition ex_add_simple_pool (c : Exchange) (e : Env) (tokens : list AccountId) (fee : N) : option (Exchange * list Promise) :=
  _ ← running c;
  _ ← no_duplicates tokens;
  p ← sp_new tokens fee;
  ex_add_pool c e (PSimple p).
(** lib.rs:189-206, 210-227, 230-247 *)
Definition ex_add_stable_pool (c : Exchange) (e : Env) (k : StableKind) (tokens : list AccountId)
    (decimals : list N) (fee amp : N) : option (Exchange * list Promise) :=
  _ ← ensure (is_guard c e);
  _ ← ensure (length tokens =? length decimals)%nat;
  _ ← no_duplicates tokens;
  p ← st_new k tokens decimals amp fee;
  ex_add_pool c e (PStable p).

(** ** Actions, action.rs *)
Inductive Action :=
| ASwap (pid : N) (token_in : AccountId) (amount_in : option N) (token_out : AccountId) (min_out : N)
| ASwapByOutput (pid : N) (token_in : AccountId) (amount_out : option N) (token_out : AccountId) (max_in : option N).
Definition act_pool (a : Action) : N := match a with ASwap p _ _ _ _ => p | ASwapByOutput p _ _ _ _ => p end.
Definition act_in (a : Action) : AccountId := match a with ASwap _ t _ _ _ => t | ASwapByOutput _ t _ _ _ => t end.
Definition act_out (a : Action) : AccountId := match a with ASwap _ _ _ t _ => t | ASwapByOutput _ _ _ t _ => t end.
Definition is_swap (a : Action) : bool := match a with ASwap _ _ _ _ _ => true | _ => false end.
(** action.rs:124-141 get_tokens_in_actions (a set in the code) *)
Definition act_tokens (l : list Action) : list AccountId := flat_map (fun a => [act_in a; act_out a]) l.
(** action.rs:143-152 assert_all_same_action_type *)
Definition same_action_type (l : list Action) : option unit :=
  ensure (forallb is_swap l || forallb (fun a => negb (is_swap a)) l).

(** lib.rs:816-858 internal_pool_swap *)
Definition ex_pool_swap (c : Exchange) (e : Env) (pid : N) (token_in : AccountId) (amount_in : N)
    (token_out : AccountId) (min_out : N) (r : option (AccountId * N)) : option (Exchange * N) :=
  c1 ← ex_update_twap c e pid;
  p ← ex_pool c1 pid;
  '(p', out) ← pl_swap p (ex_rates c1) (e_now e) token_in amount_in token_out min_out (ex_fees_ref c1 r) false;
  ii ← position token_in (pl_tokens p');
  io ← (match p' with PSimple _ => Some ii | PStable _ => position token_out (pl_tokens p') end);
  v ← vol_update (ex_volumes_of c1 pid p) ii io amount_in out;
  Some (ex_put_pool (ex_put_volumes c1 pid v) pid p', out).

(** lib.rs:862-904 internal_pool_swap_by_output *)
Definition ex_pool_swap_by_output (c : Exchange) (e : Env) (pid : N) (token_in : AccountId) (amount_out : N)
    (token_out : AccountId) (max_in : option N) (r : option (AccountId * N)) : option (Exchange * N) :=
  c1 ← ex_update_twap c e pid;
  p ← ex_pool c1 pid;
  '(p', inp) ← pl_swap_by_output p token_in amount_out token_out max_in (ex_fees_ref c1 r) false;
  ii ← position token_in (pl_tokens p');
  io ← (match p' with PSimple _ => Some ii | PStable _ => position token_out (pl_tokens p') end);
  v ← vol_update (ex_volumes_of c1 pid p) ii io inp amount_out;
  Some (ex_put_pool (ex_put_volumes c1 pid v) pid p', inp).

(** lib.rs:770-812 internal_execute_action; ActionResult is an option *)
Definition ex_exec_action (c : Exchange) (e : Env) (acc : Account) (r : option (AccountId * N)) (a : Action)
    (prev : option N) : option (Exchange * Account * N) :=
  match a with
  | ASwap pid ti am to mn =>
      x ← (match am with Some x => Some x | None => prev end);
      acc1 ← ac_withdraw acc ti x;
      '(c', out) ← ex_pool_swap c e pid ti x to mn r;
      acc2 ← ac_deposit acc1 to out;
      Some (c', acc2, out)
  | ASwapByOutput pid ti am to mx =>
      x ← (match am with Some x => Some x | None => prev end);
      '(c', i) ← ex_pool_swap_by_output c e pid ti x to mx r;
      Some (c', acc, i)
  end.

(** lib.rs:736-740 *)
Fixpoint ex_swap_loop (c : Exchange) (e : Env) (acc : Account) (r : option (AccountId * N)) (l : list Action)
    (prev : option N) : option (Exchange * Account * option N) :=
  match l with
  | [] => Some (c, acc, prev)
  | a :: l' => '(c', acc', x) ← ex_exec_action c e acc r a prev; ex_swap_loop c' e acc' r l' (Some x)
  end.

(** lib.rs:763-767 finalize_prev_swap_chain; the previous action is represented by its token_in *)
Definition ex_finalize (acc : Account) (prev_in : option AccountId) (prev : option N) : option Account :=
  match prev_in with
  | Some t => x ← prev; ac_withdraw acc t x
  | None => Some acc
  end.

(** lib.rs:741-754 *)
Fixpoint ex_output_loop (c : Exchange) (e : Env) (acc : Account) (r : option (AccountId * N)) (l : list Action)
    (prev_in : option AccountId) (prev : option N) : option (Exchange * Account * option N) :=
  match l with
  | [] => acc' ← ex_finalize acc prev_in prev; Some (c, acc', prev)
  | a :: l' =>
      acc1 ← (match a with
              | ASwapByOutput _ _ (Some x) to _ => acc0 ← ex_finalize acc prev_in prev; ac_deposit acc0 to x
              | ASwapByOutput _ _ None to _ => t ← prev_in; _ ← ensure (String.eqb t to); Some acc
              | ASwap _ _ _ _ _ => None
              end);
      '(c', acc2, x) ← ex_exec_action c e acc1 r a prev;
      ex_output_loop c' e acc2 r l' (Some (act_in a)) (Some x)
  end.

(** lib.rs:704-712 get_degen_tokens_in_actions (a set in the code) *)
Fixpoint ex_degen_tokens (c : Exchange) (l : list Action) : option (list AccountId) :=
  match l with
  | [] => Some []
  | a :: l' =>
      p ← ex_pool c (act_pool a);
      rest ← ex_degen_tokens c l';
      Some ((match pl_kind p with STABLE_SWAP KDegen => pl_tokens p | _ => [] end) ++ rest)
  end.

(** lib.rs:716-761 internal_execute_actions *)
Definition ex_execute (c : Exchange) (e : Env) (acc : Account) (r : option (AccountId * N)) (l : list Action)
    (prev : option N) (skip_sync : bool) : option (Exchange * Account * option N) :=
  _ ← same_action_type l;
  _ ← no_frozen c (act_tokens l);
  a0 ← l !! 0%nat;
  '(c', acc', res) ← (if is_swap a0 then ex_swap_loop c e acc r l prev else ex_output_loop c e acc r l None prev);
  _ ← (if skip_sync then Some tt else ts ← ex_degen_tokens c' l; rs_batch_update_request (ex_rates c') ts);
  Some (c', acc', res).

(** lib.rs:262-274: without deposit every token must be registered or whitelisted *)
Definition known_tokens (c : Exchange) (acc : Account) (ts : list AccountId) : option unit :=
  ensure (forallb (fun t => match ac_get_balance acc t with Some _ => true | None => false end || ex_whitelisted c t) ts).

(** lib.rs:310-343 execute_actions; also returns the result *)
Definition ex_execute_actions (c : Exchange) (e : Env) (l : list Action) (r : option AccountId) (skip_sync : bool)
  : option (Exchange * option N) :=
  _ ← running c;
  _ ← ensure (match l with [] => false | _ => true end);
  acc ← ex_account c (e_caller e);
  _ ← (if e_attached e =? 0 then known_tokens c acc (act_tokens l) else Some tt);
  '(c', acc', res) ← ex_execute c e acc (ex_referral c r) l None skip_sync;
  c'' ← ex_save c' (e_caller e) acc';
  Some (c'', res).
(** lib.rs:349-361 swap, 367-379 swap_by_output: the actions are all of one type and the result must be an amount *)
Definition ex_swap (c : Exchange) (e : Env) (l : list Action) (r : option AccountId) (skip_sync : bool)
  : option (Exchange * N) :=
  _ ← ensure (forallb is_swap l);
  '(c', res) ← ex_execute_actions c e l r skip_sync;
  x ← res; Some (c', x).
Definition ex_swap_by_output (c : Exchange) (e : Env) (l : list Action) (r : option AccountId) (skip_sync : bool)
  : option (Exchange * N) :=
  _ ← ensure (forallb (fun a => negb (is_swap a)) l);
  '(c', res) ← ex_execute_actions c e l r skip_sync;
  x ← res; Some (c', x).

(** the positive balances of a virtual account, lib.rs:292-297, token_receiver.rs:78-83 *)
Definition va_out (acc : Account) : list (AccountId * N) :=
  filter (fun x => (0 <? x.2) = true) (map_to_list (ac_tokens acc)).
(** lib.rs:280-283 *)
Fixpoint va_take (acc va : Account) (l : list (AccountId * N)) : option (Account * Account) :=
  match l with
  | [] => Some (acc, va)
  | (t, x) :: l' => acc' ← ac_withdraw acc t x; va' ← ac_deposit va t x; va_take acc' va' l'
  end.
Fixpoint ac_deposit_list (acc : Account) (l : list (AccountId * N)) : option Account :=
  match l with [] => Some acc | (t, x) :: l' => acc' ← ac_deposit acc t x; ac_deposit_list acc' l' end.
(** lib.rs:250-302 execute_actions_in_va; also returns what was credited *)
Definition ex_execute_in_va (c : Exchange) (e : Env) (use : gmap AccountId N) (l : list Action) (r : option AccountId)
    (skip_sync : bool) : option (Exchange * list (AccountId * N)) :=
  _ ← running c;
  _ ← ensure (match l with [] => false | _ => true end);
  acc ← ex_account c (e_caller e);
  _ ← (if e_attached e =? 0 then known_tokens c acc (act_tokens l) else Some tt);
  '(acc1, va) ← va_take acc ac_new (map_to_list use);
  '(c', va', _res) ← ex_execute c e va (ex_referral c r) l None skip_sync;
  acc2 ← ac_deposit_list acc1 (va_out va');
  c'' ← ex_save c' (e_caller e) acc2;
  Some (c'', va_out va').

(** ** Liquidity, lib.rs:383-560 *)
(** zip of amounts and minimums, 409-411 *)
Definition mins_met (amounts mins : list N) : option unit :=
  ensure (forallb (fun '(x, m) => m <=? x) (zip amounts mins)).
(** 383-424 add_liquidity; also returns the shares *)
Definition ex_add_liquidity (c : Exchange) (e : Env) (pid : N) (amounts : list N) (mins : option (list N))
  : option (Exchange * list Promise * N) :=
  _ ← running c;
  _ ← ensure (0 <? e_attached e);
  c1 ← ex_update_twap c e pid;
  p ← ex_pool c1 pid;
  _ ← no_frozen c1 (pl_tokens p);
  '(p', taken, shares) ← pl_add_liquidity p (e_caller e) amounts false;
  _ ← (match mins with Some ms => mins_met taken ms | None => Some tt end);
  acc ← ex_account c1 (e_caller e);
  acc' ← ac_withdraw_all acc (pl_tokens p') taken;
  c2 ← ex_save c1 (e_caller e) acc';
  ps ← check_storage e;
  Some (ex_put_pool c2 pid p', ps, shares).
(** 432-470 add_stable_liquidity *)
Definition ex_add_stable_liquidity (c : Exchange) (e : Env) (pid : N) (amounts : list N) (min_shares : N)
  : option (Exchange * list Promise * N) :=
  _ ← running c;
  _ ← ensure (0 <? e_attached e);
  c1 ← ex_update_twap c e pid;
  p ← ex_pool c1 pid;
  _ ← no_frozen c1 (pl_tokens p);
  '(p', shares) ← pl_add_stable_liquidity p (ex_rates c1) (e_now e) (e_caller e) amounts min_shares (ex_fees c1) false;
  _ ← pl_assert_tvl p' (ex_rates c1) (e_now e) (cf_limits (ex_cfg c1) !! pid);
  acc ← ex_account c1 (e_caller e);
  acc' ← ac_withdraw_all acc (pl_tokens p') amounts;
  c2 ← ex_save c1 (e_caller e) acc';
  ps ← check_storage e;
  Some (ex_put_pool c2 pid p', ps, shares).
(** 484-516 remove_liquidity; also returns the amounts *)
Definition ex_remove_liquidity (c : Exchange) (e : Env) (pid shares : N) (mins : list N) : option (Exchange * list N) :=
  _ ← one_yocto e;
  _ ← running c;
  c1 ← ex_update_twap c e pid;
  p ← ex_pool c1 pid;
  acc ← ex_account c1 (e_caller e);
  _ ← (match ac_shadow acc !! pid with
       | Some r => free ← sh_free r (pl_share_balance p (e_caller e)); ensure (shares <=? free)
       | None => Some tt
       end);
  _ ← no_frozen c1 (pl_tokens p);
  '(p', amounts) ← pl_remove_liquidity p (e_caller e) shares mins false;
  acc' ← ac_deposit_all acc (pl_tokens p') amounts;
  c2 ← ex_save (ex_put_pool c1 pid p') (e_caller e) acc';
  Some (c2, amounts).
(** 523-560 remove_liquidity_by_tokens; also returns the burned shares *)
Definition ex_remove_by_tokens (c : Exchange) (e : Env) (pid : N) (amounts : list N) (max_burn : N) : option (Exchange * N) :=
  _ ← one_yocto e;
  _ ← running c;
  c1 ← ex_update_twap c e pid;
  p ← ex_pool c1 pid;
  acc ← ex_account c1 (e_caller e);
  free ← (match ac_shadow acc !! pid with
          | Some r => sh_free r (pl_share_balance p (e_caller e))
          | None => Some (pl_share_balance p (e_caller e))
          end);
  _ ← no_frozen c1 (pl_tokens p);
  '(p', burn) ← pl_remove_by_tokens p (ex_rates c1) (e_now e) (e_caller e) amounts max_burn (ex_fees c1) false;
  _ ← ensure (burn <=? free);
  acc' ← ac_deposit_all acc (pl_tokens p') amounts;
  c2 ← ex_save (ex_put_pool c1 pid p') (e_caller e) acc';
  Some (c2, burn).

(** ** Deposits and withdrawals, account_deposit.rs *)
(** 322-329 register_tokens, 334-343 unregister_tokens *)
Definition ex_register_tokens (c : Exchange) (e : Env) (ts : list AccountId) : option Exchange :=
  _ ← one_yocto e; _ ← running c;
  acc ← ex_account c (e_caller e);
  ex_save c (e_caller e) (ac_register acc ts).
Definition ex_unregister_tokens (c : Exchange) (e : Env) (ts : list AccountId) : option Exchange :=
  _ ← one_yocto e; _ ← running c;
  acc ← ex_account c (e_caller e);
  acc' ← ac_unregister_all acc ts;
  ex_save c (e_caller e) acc'.
(** 582-626 internal_send_tokens *)
Definition ex_send (c : Exchange) (receiver token : AccountId) (amount : N) (skip_unwrap : option bool) : Promise :=
  if bool_decide (cf_wnear (ex_cfg c) = Some token) && negb (default true skip_unwrap)
  then PUnwrap token receiver amount else PSend token receiver amount.
(** 357-386 withdraw *)
Definition ex_withdraw (c : Exchange) (e : Env) (token : AccountId) (amount : N) (unregister : bool)
    (skip_unwrap : option bool) : option (Exchange * list Promise) :=
  _ ← one_yocto e; _ ← running c;
  _ ← no_frozen c [token];
  acc ← ex_account c (e_caller e);
  x ← (if amount =? 0 then ac_get_balance acc token else Some amount);
  _ ← ensure (0 <? x);
  acc1 ← ac_withdraw acc token x;
  acc2 ← (if unregister then ac_unregister acc1 token else Some acc1);
  c' ← ex_save c (e_caller e) acc2;
  Some (c', [ex_send c (e_caller e) token x skip_unwrap]).
(** account_lostfound.rs:81-92 insert_lostfound_token, 94-108 remove_lostfound_token *)
Definition lost_insert (m : gmap AccountId (gmap AccountId N)) (a t : AccountId) (x : N)
  : option (gmap AccountId (gmap AccountId N)) :=
  let am := default ∅ (m !! a) in
  y ← cadd W128 (default 0 (am !! t)) x;
  Some (<[a := <[t := y]> am]> m).
Definition lost_remove (m : gmap AccountId (gmap AccountId N)) (a t : AccountId) : gmap AccountId (gmap AccountId N) * N :=
  let am := default ∅ (m !! a) in
  let am' := delete t am in
  ((if bool_decide (am' = ∅) then delete a m else <[a := am']> m), default 0 (am !! t)).
(** 503-507 internal_lostfound *)
Definition ex_lostfound (c : Exchange) (token : AccountId) (amount : N) : option Exchange :=
  let o := cf_owner (ex_cfg c) in
  acc ← ac_deposit (ex_account_or_new c o) token amount;
  Some (ex_put c o acc).
(** 440-492 internal_handle_fail_in_withdraw_callback *)
Definition ex_handle_fail (c : Exchange) (e : Env) (sender token : AccountId) (amount : N) : option Exchange :=
  '(c', ok) ← (match ex_account c sender with
               | Some acc =>
                   '(acc', ok) ← ac_deposit_with_storage_check acc token amount;
                   if ok : bool then Some (ex_put c sender acc', true) else Some (c, false)
               | None => Some (c, false)
               end);
  if ok : bool then Some c'
  else if e_spare e then m ← lost_insert (ex_lost c') sender token amount; Some (ex_set_lost c' m)
  else ex_lostfound c' token amount.
(** 389-412 exchange_callback_post_withdraw_near; [ok]: the outcome of near_withdraw *)
Definition ex_callback_near (c : Exchange) (e : Env) (sender : AccountId) (amount : N) (ok : bool)
  : option (Exchange * list Promise) :=
  if ok then Some (c, [PNear sender amount])
  else t ← cf_wnear (ex_cfg c); c' ← ex_handle_fail c e sender t amount; Some (c', []).
(** 415-435 exchange_callback_post_withdraw *)
Definition ex_callback_withdraw (c : Exchange) (e : Env) (token sender : AccountId) (amount : N) (ok : bool)
  : option Exchange :=
  if ok then Some c else ex_handle_fail c e sender token amount.
(** 536-551 internal_deposit *)
Definition ex_deposit (c : Exchange) (sender token : AccountId) (amount : N) : option Exchange :=
  acc ← ex_account c sender;
  _ ← ensure (ex_whitelisted c token || match ac_get_balance acc token with Some _ => true | None => false end);
  acc' ← ac_deposit acc token amount;
  ex_save c sender acc'.
(** account_lostfound.rs:52-62 claim_lostfound *)
Definition ex_claim_lostfound (c : Exchange) (e : Env) (token : AccountId) : option (Exchange * list Promise) :=
  _ ← one_yocto e; _ ← running c;
  _ ← no_frozen c [token];
  let '(m, x) := lost_remove (ex_lost c) (e_caller e) token in
  _ ← ensure (0 <? x);
  Some (ex_set_lost c m, [ex_send c (e_caller e) token x None]).

(** ** Incoming tokens, token_receiver.rs *)
(** 13-18 AddLiquidityInfo *)
Record AddInfo := mkAddInfo { ai_pool : N; ai_amounts : list N; ai_mins : option (list N); ai_min_shares : option N }.
(** 24-45 TokenReceiverMessage, or the empty message *)
Inductive TokenMsg :=
| MsgDeposit
| MsgExecute (referral : option AccountId) (actions : list Action) (echo : bool) (skip_unwrap : option bool)
    (recipient : option AccountId) (skip_sync : bool)
| MsgHotZap (referral : option AccountId) (actions : list Action) (infos : list AddInfo) (skip_sync : bool).
(** 50-87 internal_direct_actions *)
Definition ex_direct (c : Exchange) (e : Env) (token : AccountId) (amount : N) (r : option AccountId)
    (l : list Action) (skip_sync : bool) : option (Exchange * list (AccountId * N)) :=
  va ← ac_deposit ac_new token amount;
  a0 ← l !! 0%nat;
  '(c', va', _res) ← ex_execute c e va (ex_referral c r) l (if is_swap a0 then Some amount else None) skip_sync;
  Some (c', va_out va').
(** utils.rs:136-160 TokenCache *)
Definition tc_add (m : gmap AccountId N) (t : AccountId) (x : N) : option (gmap AccountId N) :=
  match m !! t with
  | Some y => z ← cadd W128 y x; Some (<[t := z]> m)
  | None => Some (<[t := x]> m)
  end.
Definition tc_sub (m : gmap AccountId N) (t : AccountId) (x : N) : option (gmap AccountId N) :=
  if x =? 0 then Some m else
  y ← m !! t;
  z ← csub y x;
  Some (if 0 <? z then <[t := z]> m else delete t m).
Fixpoint tc_add_all (m : gmap AccountId N) (l : list (AccountId * N)) : option (gmap AccountId N) :=
  match l with [] => Some m | (t, x) :: l' => m' ← tc_add m t x; tc_add_all m' l' end.
Fixpoint tc_sub_all (m : gmap AccountId N) (l : list (AccountId * N)) : option (gmap AccountId N) :=
  match l with [] => Some m | (t, x) :: l' => m' ← tc_sub m t x; tc_sub_all m' l' end.
(** 184-226: the loop adding liquidity *)
Definition ex_zap_one (c : Exchange) (e : Env) (sender : AccountId) (m : gmap AccountId N) (i : AddInfo)
  : option (Exchange * gmap AccountId N) :=
  p ← ex_pool c (ai_pool i);
  '(p', amounts) ←
    (match p with
     | PSimple _ =>
         '(p', taken, _shares) ← pl_add_liquidity p sender (ai_amounts i) false;
         ms ← ai_mins i;
         _ ← mins_met taken ms;
         Some (p', taken)
     | PStable _ =>
         mn ← ai_min_shares i;
         '(p', _shares) ← pl_add_stable_liquidity p (ex_rates c) (e_now e) sender (ai_amounts i) mn (ex_fees c) false;
         Some (p', ai_amounts i)
     end);
  _ ← pl_assert_tvl p' (ex_rates c) (e_now e) (cf_limits (ex_cfg c) !! ai_pool i);
  m' ← tc_sub_all m (zip (pl_tokens p) amounts);
  Some (ex_put_pool c (ai_pool i) p', m').
Fixpoint ex_zap_loop (c : Exchange) (e : Env) (sender : AccountId) (m : gmap AccountId N) (l : list AddInfo)
  : option (Exchange * gmap AccountId N) :=
  match l with
  | [] => Some (c, m)
  | i :: l' => '(c', m') ← ex_zap_one c e sender m i; ex_zap_loop c' e sender m' l'
  end.
(** 255-265 get_hot_zap_tokens (a set in the code) *)
Fixpoint ex_infos_tokens (c : Exchange) (l : list AddInfo) : option (list AccountId) :=
  match l with
  | [] => Some []
  | i :: l' => p ← ex_pool c (ai_pool i); ts ← ex_infos_tokens c l'; Some (pl_tokens p ++ ts)
  end.
(** 150-248 the HotZap branch *)
Definition ex_hot_zap (c : Exchange) (e : Env) (sender token : AccountId) (amount : N) (r : option AccountId)
    (l : list Action) (infos : list AddInfo) (skip_sync : bool) : option Exchange :=
  _ ← ensure (match l with [] => false | _ => true end && match infos with [] => false | _ => true end);
  acc ← ex_account c sender;
  ts ← ex_infos_tokens c infos;
  _ ← known_tokens c acc (act_tokens l ++ ts);
  _ ← no_frozen c (act_tokens l ++ ts);
  '(c1, outs) ← ex_direct c e token amount r l skip_sync;
  m ← tc_add_all ∅ outs;
  '(c2, m') ← ex_zap_loop c1 e sender m infos;
  near ← csub (ac_near acc) (e_grow e);
  acc' ← ac_deposit_list (ac_set_near acc near) (map_to_list m');
  ex_save c2 sender acc'.
(** 96-251 ft_on_transfer; the predecessor is the token *)
Definition ex_ft_on_transfer (c : Exchange) (e : Env) (sender : AccountId) (amount : N) (m : TokenMsg)
  : option (Exchange * list Promise) :=
  let token := e_caller e in
  _ ← not_payable e; _ ← running c;
  match m with
  | MsgDeposit =>
      _ ← no_frozen c [token];
      c' ← ex_deposit c sender token amount; Some (c', [])
  | MsgExecute r l echo skip_unwrap recipient skip_sync =>
      _ ← ensure (negb (echo && match recipient with Some _ => true | None => false end));
      _ ← ensure (match l with [] => false | _ => true end);
      _ ← (if echo then assert_client_echo_valid (cf_echo (ex_cfg c)) token sender else Some tt);
      '(c', outs) ← ex_direct c e token amount r l skip_sync;
      _ ← ensure (negb (echo && String.eqb sender (cf_burrow (ex_cfg c))) || (length outs =? 1)%nat);
      Some (c', (fun x => if echo then PSendMsg x.1 sender x.2
                          else ex_send c' (default sender recipient) x.1 x.2 skip_unwrap) <$> outs)
  | MsgHotZap r l infos skip_sync =>
      c' ← ex_hot_zap c e sender token amount r l infos skip_sync; Some (c', [])
  end.

(** ** Share and balance transfers, multi_fungible_token.rs *)
(** str::parse::<u64>: an optional '+' (43), then at least one digit (48-57), below 2^64 *)
Definition digit_of (ch : ascii) : option N :=
  let n := N_of_ascii ch in if (48 <=? n) && (n <=? 57) then Some (n - 48) else None.
Fixpoint parse_digits (acc : N) (s : string) : option N :=
  match s with
  | EmptyString => Some acc
  | String ch r => d ← digit_of ch; x ← cmul W64 acc 10; y ← cadd W64 x d; parse_digits y r
  end.
Definition parse_u64 (s : string) : option N :=
  let s' := match s with String ch r => if Ascii.eqb ch (ascii_of_N 43) then r else s | EmptyString => s end in
  match s' with EmptyString => None | _ => parse_digits 0 s' end.
(** 39-49 try_identify_pool_id, 51-57 parse_token_id; ':' is 58 *)
Definition mft_pool_of (id : string) : option N :=
  match id with String ch r => if Ascii.eqb ch (ascii_of_N 58) then parse_u64 r else None | EmptyString => None end.
(** 60-124 internal_mft_transfer; also returns the amount *)
Definition ex_mft_transfer (c : Exchange) (id : string) (sender receiver : AccountId) (amount : option N)
  : option (Exchange * N) :=
  _ ← ensure (negb (String.eqb sender receiver));
  match mft_pool_of id with
  | Some pid =>
      p ← ex_pool c pid;
      let total := pl_share_balance p sender in
      available ← (match ex_account c sender with
                   | Some acc => match ac_shadow acc !! pid with Some r => sh_free r total | None => Some total end
                   | None => Some total
                   end);
      let x := default available amount in
      _ ← ensure (0 <? x);
      _ ← ensure (x <=? available);
      p' ← pl_share_transfer p sender receiver x;
      Some (ex_put_pool c pid p', x)
  | None =>
      x ← amount;
      sa ← ex_account c sender;
      ra ← ex_account c receiver;
      sa' ← ac_withdraw sa id x;
      ra' ← ac_deposit ra id x;
      c1 ← ex_save c sender sa';
      c2 ← ex_save c1 receiver ra';
      Some (c2, x)
  end.
(** 126-134 internal_mft_balance *)
Definition ex_mft_balance (c : Exchange) (id : string) (a : AccountId) : option N :=
  match mft_pool_of id with
  | Some pid => p ← ex_pool c pid; Some (pl_share_balance p a)
  | None => Some (default 0 (acc ← ex_account c a; ac_get_balance acc id))
  end.
(** 174-187 mft_register *)
Definition ex_mft_register (c : Exchange) (e : Env) (id : string) (a : AccountId) : option (Exchange * list Promise) :=
  _ ← running c;
  pid ← mft_pool_of id;
  p ← ex_pool c pid;
  p' ← pl_share_register p a;
  ps ← check_storage e;
  Some (ex_put_pool c pid p', ps).
(** 190-208 mft_unregister *)
Definition ex_mft_unregister (c : Exchange) (e : Env) (id : string) : option (Exchange * list Promise) :=
  _ ← one_yocto e; _ ← running c;
  pid ← mft_pool_of id;
  p ← ex_pool c pid;
  p' ← pl_share_unregister p (e_caller e);
  Some (ex_put_pool c pid p', if 0 <? e_freed e then [PNear (e_caller e) (e_freed e)] else []).
(** 212-228 mft_transfer *)
Definition ex_mft_transfer_call_free (c : Exchange) (e : Env) (id : string) (receiver : AccountId) (amount : N) : option Exchange :=
  _ ← one_yocto e; _ ← running c;
  '(c', _x) ← ex_mft_transfer c id (e_caller e) receiver (Some amount); Some c'.
(** 231-268 mft_transfer_call ([amount] given), 271-306 mft_transfer_all_call (none) *)
Definition ex_mft_transfer_call (c : Exchange) (e : Env) (id : string) (receiver : AccountId) (amount : option N)
  : option (Exchange * list Promise) :=
  _ ← one_yocto e; _ ← running c;
  '(c', x) ← ex_mft_transfer c id (e_caller e) receiver amount;
  Some (c', [PMft id (e_caller e) receiver x]).
(** 313-347 mft_resolve_transfer; [ret]: the amount returned by the receiver, None if it failed or is not a number *)
Definition ex_mft_resolve (c : Exchange) (id : string) (sender receiver : AccountId) (amount : N) (ret : option N)
  : option Exchange :=
  let unused := match ret with Some x => N.min amount x | None => amount end in
  if 0 <? unused then
    bal ← ex_mft_balance c id receiver;
    if 0 <? bal then
      let refund_to := match ex_accounts c !! sender with Some _ => sender | None => ex_self c end in
      '(c', _x) ← ex_mft_transfer c id receiver refund_to (Some (N.min bal unused)); Some c'
    else Some c
  else Some c.

(** ** Donations, donation.rs *)
(** 15-38 donation_share *)
Definition ex_donate_share (c : Exchange) (e : Env) (pid : N) (amount : option N) (unregister : bool)
  : option (Exchange * list Promise) :=
  _ ← one_yocto e; _ ← running c;
  p ← ex_pool c pid;
  let x := default (pl_share_balance p (e_caller e)) amount in
  _ ← ensure (0 <? x);
  p1 ← pl_share_transfer p (e_caller e) (ex_self c) x;
  p2 ← (if unregister then pl_share_unregister p1 (e_caller e) else Some p1);
  let c1 := ex_put_pool c pid p2 in
  if 0 <? e_freed e then
    match ex_account c1 (e_caller e) with
    | Some acc =>
        near ← cadd W128 (ac_near acc) (e_freed e);
        c2 ← ex_save c1 (e_caller e) (ac_set_near acc near);
        Some (c2, [])
    | None => Some (c1, [PNear (e_caller e) (e_freed e)])
    end
  else Some (c1, []).
(** 48-63 donation_token *)
Definition ex_donate_token (c : Exchange) (e : Env) (token : AccountId) (amount : option N) (unregister : bool)
  : option Exchange :=
  _ ← one_yocto e; _ ← running c;
  acc ← ex_account c (e_caller e);
  bal ← ac_get_balance acc token;
  let x := default bal amount in
  _ ← ensure (0 <? x);
  acc1 ← ac_withdraw acc token x;
  acc2 ← (if unregister then ac_unregister acc1 token else Some acc1);
  c1 ← ex_save c (e_caller e) acc2;
  oa ← ex_account c1 (cf_owner (ex_cfg c1));
  oa' ← ac_deposit oa token x;
  Some (ex_put c1 (cf_owner (ex_cfg c1)) oa').

(** ** Shadows, shadow_actions.rs *)
(** 32-34 pool_id_to_shadow_id *)
Definition pool_id_to_shadow_id (pid : N) : string := ("shadow_ref_v1-" +:+ pretty pid)%string.
(** 36-38 shadow_id_to_pool_id: the second piece between '-' (45) *)
Fixpoint until_dash (s : string) : string :=
  match s with
  | EmptyString => EmptyString
  | String ch r => if Ascii.eqb ch (ascii_of_N 45) then EmptyString else String ch (until_dash r)
  end.
Fixpoint after_dash (s : string) : option string :=
  match s with
  | EmptyString => None
  | String ch r => if Ascii.eqb ch (ascii_of_N 45) then Some r else after_dash r
  end.
Definition shadow_id_to_pool_id (s : string) : option N := r ← after_dash s; parse_u64 (until_dash r).
(** 74-103: how much an action can move *)
Definition shadow_max (act : ShadowAction) (r : option ShadowRecord) (total : N) : option N :=
  match act, r with
  | ToFarming, Some r => sh_available_farming r total
  | ToBurrowland, Some r => sh_available_burrow r total
  | ToFarming, None | ToBurrowland, None => Some total
  | FromFarming, Some r => Some (sh_farm r)
  | FromBurrowland, Some r => Some (sh_burrow r)
  | FromFarming, None | FromBurrowland, None => Some 0
  end.
Definition is_cast (act : ShadowAction) : bool := match act with ToFarming | ToBurrowland => true | _ => false end.
(** 64-169 shadow_action *)
Definition ex_shadow_action (c : Exchange) (e : Env) (act : ShadowAction) (pid : N) (amount : option N)
  : option (Exchange * list Promise) :=
  _ ← running c;
  acc ← ex_account c (e_caller e);
  p ← ex_pool c pid;
  mx ← shadow_max act (ac_shadow acc !! pid) (pl_share_balance p (e_caller e));
  let x := default mx amount in
  _ ← ensure (0 <? x);
  _ ← ensure (x <=? mx);
  if is_cast act then
    acc' ← ac_update_shadow acc pid act x;
    c' ← ex_save c (e_caller e) acc';
    ps ← check_storage e;
    Some (c', ps ++ [PShadow act (e_caller e) pid x (e_grow e)])
  else Some (c, [PShadow act (e_caller e) pid x 0]).
(** 171-238 on_burrow_liquidation *)
Definition ex_burrow_liquidation (c : Exchange) (e : Env) (liquidator victim : AccountId) (sid : string)
    (amount : N) (mins : list N) : option (Exchange * list Promise) :=
  _ ← not_payable e;
  _ ← ensure (String.eqb (cf_burrow (ex_cfg c)) (e_caller e));
  pid ← shadow_id_to_pool_id sid;
  p ← ex_pool c pid;
  _ ← no_frozen c (pl_tokens p);
  let total := pl_share_balance p victim in
  va ← ex_account c victim;
  va1 ← ac_update_shadow va pid FromBurrowland amount;
  available ← (match ac_shadow va1 !! pid with Some r => sh_free r total | None => Some total end);
  let seed := if 0 <? available then (if amount <? available then 0 else amount - available) else amount in
  va2 ← (if 0 <? seed then ac_update_shadow va1 pid FromFarming seed else Some va1);
  near ← cadd W128 (ac_near va2) (e_freed e);
  c1 ← ex_save c victim (ac_set_near va2 near);
  la ← ex_account c1 liquidator;
  '(p', amounts) ← pl_remove_liquidity p victim amount mins false;
  la' ← ac_deposit_all la (pl_tokens p') amounts;
  c2 ← ex_save (ex_put_pool c1 pid p') liquidator la';
  Some (c2, if 0 <? seed then [PRemoveShadow victim pid seed] else []).
(** 244-286 callback_on_shadow *)
Definition ex_callback_shadow (c : Exchange) (e : Env) (act : ShadowAction) (sender : AccountId) (pid amount fee : N)
    (ok : bool) : option (Exchange * list Promise) :=
  if ok then
    if is_cast act then Some (c, [])
    else
      acc ← ex_account c sender;
      acc1 ← ac_update_shadow acc pid act amount;
      near ← cadd W128 (ac_near acc1) (e_freed e);
      c' ← ex_save c sender (ac_set_near acc1 near);
      Some (c', [])
  else
    acc ← ex_account c sender;
    acc1 ← (match act with
            | ToFarming => ac_update_shadow acc pid FromFarming amount
            | ToBurrowland => ac_update_shadow acc pid FromBurrowland amount
            | _ => Some acc
            end);
    c' ← ex_save c sender acc1;
    Some (c', if is_cast act && (0 <? fee) then [PNear sender fee] else []).

(** ** Storage, storage_impl.rs *)
(** account_deposit.rs:513-517 internal_register_account *)
Definition ex_register_account (c : Exchange) (a : AccountId) (amount : N) : option Exchange :=
  let acc := ex_account_or_new c a in
  near ← cadd W128 (ac_near acc) amount;
  ex_save c a (ac_set_near acc near).
(** 7-42 storage_deposit *)
Definition ex_storage_deposit (c : Exchange) (e : Env) (a : option AccountId) (registration_only : bool)
  : option (Exchange * list Promise) :=
  _ ← running c;
  let amount := e_attached e in
  let id := default (e_caller e) a in
  let registered := match ex_accounts c !! id with Some _ => true | None => false end in
  _ ← ensure (negb ((amount <? min_storage_usage) && negb registered));
  if registration_only then
    if registered then Some (c, if 0 <? amount then [PNear (e_caller e) amount] else [])
    else
      c' ← ex_register_account c id min_storage_usage;
      refund ← csub amount min_storage_usage;
      Some (c', if 0 <? refund then [PNear (e_caller e) refund] else [])
  else c' ← ex_register_account c id amount; Some (c', []).
(** 45-56 storage_withdraw, account_deposit.rs:520-532 internal_storage_withdraw *)
Definition ex_storage_withdraw (c : Exchange) (e : Env) (amount : N) : option (Exchange * list Promise) :=
  _ ← one_yocto e; _ ← running c;
  acc ← ex_account c (e_caller e);
  let available := ac_storage_available acc in
  _ ← ensure (0 <? available);
  let x := if amount =? 0 then available else amount in
  _ ← ensure (x <=? available);
  near ← csub (ac_near acc) x;
  c' ← ex_save c (e_caller e) (ac_set_near acc near);
  Some (c', [PNear (e_caller e) x]).
(** 59-76 storage_unregister *)
Definition ex_storage_unregister (c : Exchange) (e : Env) : option (Exchange * list Promise) :=
  _ ← one_yocto e; _ ← running c;
  match ex_account c (e_caller e) with
  | Some acc =>
      _ ← ensure (bool_decide (ac_tokens acc = ∅) && bool_decide (ac_legacy acc = ∅)
                  && (size (ac_shadow acc) =? 0)%nat);
      Some (ex_set_accounts c (delete (e_caller e) (ex_accounts c)), [PNear (e_caller e) (ac_near acc)])
  | None => Some (c, [])
  end.

(** ** Owner and guardians, owner.rs *)
Definition ex_upd (c : Exchange) (k : Config) : Exchange := ex_set_cfg c k.
(** HashSet / UnorderedSet: insert all; remove all, each must be present *)
Definition set_extend (s : gset string) (l : list string) : gset string := list_to_set l ∪ s.
Fixpoint set_remove (s : gset string) (l : list string) : option (gset string) :=
  match l with [] => Some s | x :: r => _ ← ensure (bool_decide (x ∈ s)); set_remove (s ∖ {[ x ]}) r end.
(** 15-19 set_owner *)
Definition ex_set_owner (c : Exchange) (e : Env) (o : AccountId) : option Exchange :=
  _ ← owner_call c e; Some (ex_upd c (cf_set_owner (ex_cfg c) o)).
(** 30-52 retrieve_unmanaged_token *)
Definition ex_retrieve (c : Exchange) (e : Env) (token : AccountId) (amount : N) : option (Exchange * list Promise) :=
  _ ← owner_call c e; _ ← ensure (0 <? amount);
  Some (c, [PRetrieve token (cf_owner (ex_cfg c)) amount]).
(** 55-61 extend_guardians, 65-73 remove_guardians *)
Definition ex_extend_guardians (c : Exchange) (e : Env) (l : list AccountId) : option Exchange :=
  _ ← owner_call c e; Some (ex_upd c (cf_set_guardians (ex_cfg c) (set_extend (cf_guardians (ex_cfg c)) l))).
Definition ex_remove_guardians (c : Exchange) (e : Env) (l : list AccountId) : option Exchange :=
  _ ← owner_call c e; s ← set_remove (cf_guardians (ex_cfg c)) l; Some (ex_upd c (cf_set_guardians (ex_cfg c) s)).
(** 76-82, 85-92 auto whitelisted postfixes *)
Definition ex_extend_postfix (c : Exchange) (e : Env) (l : list string) : option Exchange :=
  _ ← guard_call c e; Some (ex_upd c (cf_set_postfix (ex_cfg c) (set_extend (cf_postfix (ex_cfg c)) l))).
Definition ex_remove_postfix (c : Exchange) (e : Env) (l : list string) : option Exchange :=
  _ ← guard_call c e; s ← set_remove (cf_postfix (ex_cfg c)) l; Some (ex_upd c (cf_set_postfix (ex_cfg c) s)).
(** 95-100, 103-108, 111-116 *)
Definition ex_modify_farm (c : Exchange) (e : Env) (a : AccountId) : option Exchange :=
  _ ← guard_call c e; Some (ex_upd c (cf_set_farm (ex_cfg c) a)).
Definition ex_modify_burrow (c : Exchange) (e : Env) (a : AccountId) : option Exchange :=
  _ ← guard_call c e; Some (ex_upd c (cf_set_burrow (ex_cfg c) a)).
Definition ex_modify_wnear (c : Exchange) (e : Env) (a : AccountId) : option Exchange :=
  _ ← owner_call c e; Some (ex_upd c (cf_set_wnear (ex_cfg c) (Some a))).
(** 120-138 change_state *)
Definition ex_change_state (c : Exchange) (e : Env) (b : bool) : option Exchange :=
  _ ← guard_call c e;
  if Bool.eqb (cf_running (ex_cfg c)) b then Some c
  else _ ← (if b then ensure (is_owner c e) else Some tt); Some (ex_upd c (cf_set_running (ex_cfg c) b)).
(** 142-148, 152-159 whitelisted tokens *)
Definition ex_extend_whitelist (c : Exchange) (e : Env) (l : list AccountId) : option Exchange :=
  _ ← guard_call c e; Some (ex_upd c (cf_set_whitelist (ex_cfg c) (set_extend (cf_whitelist (ex_cfg c)) l))).
Definition ex_remove_whitelist (c : Exchange) (e : Env) (l : list AccountId) : option Exchange :=
  _ ← guard_call c e; s ← set_remove (cf_whitelist (ex_cfg c)) l; Some (ex_upd c (cf_set_whitelist (ex_cfg c) s)).
(** 163-169, 173-180 frozen tokens *)
Definition ex_extend_frozen (c : Exchange) (e : Env) (l : list AccountId) : option Exchange :=
  _ ← guard_call c e; Some (ex_upd c (cf_set_frozen (ex_cfg c) (set_extend (cf_frozen (ex_cfg c)) l))).
Definition ex_remove_frozen (c : Exchange) (e : Env) (l : list AccountId) : option Exchange :=
  _ ← guard_call c e; s ← set_remove (cf_frozen (ex_cfg c)) l; Some (ex_upd c (cf_set_frozen (ex_cfg c) s)).
(** 184-199 insert_referral, 202-217 update_referral, 220-233 remove_referral *)
Definition ex_put_referral (must_exist : bool) (c : Exchange) (e : Env) (a : AccountId) (fee : N) : option Exchange :=
  _ ← guard_call c e;
  _ ← ensure ((0 <? fee) && (fee <? FEE_DIVISOR));
  _ ← ensure (Bool.eqb must_exist match cf_referrals (ex_cfg c) !! a with Some _ => true | None => false end);
  Some (ex_upd c (cf_set_referrals (ex_cfg c) (<[a := fee]> (cf_referrals (ex_cfg c))))).
Definition ex_remove_referral (c : Exchange) (e : Env) (a : AccountId) : option Exchange :=
  _ ← guard_call c e;
  _ ← cf_referrals (ex_cfg c) !! a;
  Some (ex_upd c (cf_set_referrals (ex_cfg c) (delete a (cf_referrals (ex_cfg c))))).
(** 238-243 modify_admin_fee *)
Definition ex_modify_admin_fee (c : Exchange) (e : Env) (fee : N) : option Exchange :=
  _ ← owner_call c e; _ ← ensure (fee <=? MAX_ADMIN_FEE_BPS);
  Some (ex_upd c (cf_set_admin_fee (ex_cfg c) fee)).
(** 246-256 modify_total_fee *)
Definition ex_modify_total_fee (c : Exchange) (e : Env) (pid fee : N) : option Exchange :=
  _ ← guard_call c e; _ ← ensure (fee <? FEE_DIVISOR);
  p ← ex_pool c pid;
  Some (ex_put_pool c pid (pl_modify_total_fee p fee)).
(** 261-284 remove_exchange_fee_liquidity *)
Definition ex_remove_fee_liquidity (c : Exchange) (e : Env) (pid shares : N) (mins : list N) : option Exchange :=
  _ ← guard_call c e; _ ← running c;
  p ← ex_pool c pid;
  '(p', amounts) ← pl_remove_liquidity p (ex_self c) shares mins false;
  let c1 := ex_put_pool c pid p' in
  acc ← ex_account c1 (cf_owner (ex_cfg c1));
  acc' ← ac_deposit_all acc (pl_tokens p') amounts;
  ex_save c1 (cf_owner (ex_cfg c1)) acc'.
(** 289-306 withdraw_owner_token *)
Definition ex_withdraw_owner (c : Exchange) (e : Env) (token : AccountId) (amount : N) (skip_unwrap : option bool)
  : option (Exchange * list Promise) :=
  _ ← guard_call c e; _ ← running c;
  _ ← ensure (0 <? amount);
  let o := cf_owner (ex_cfg c) in
  acc ← ex_account c o;
  acc' ← ac_withdraw acc token amount;
  Some (ex_put c o acc', [ex_send c o token amount skip_unwrap]).
(** 313-335 stable_swap_ramp_amp, 338-349 stable_swap_stop_ramp_amp *)
Definition ex_ramp (c : Exchange) (e : Env) (pid amp time : N) : option Exchange :=
  _ ← guard_call c e;
  p ← ex_pool c pid;
  p' ← pl_ramp p (ex_rates c) (e_now e) amp time;
  Some (ex_put_pool c pid p').
Definition ex_stop_ramp (c : Exchange) (e : Env) (pid : N) : option Exchange :=
  _ ← guard_call c e;
  p ← ex_pool c pid;
  p' ← pl_stop_ramp p (ex_rates c) (e_now e);
  Some (ex_put_pool c pid p').
(** 353-456 rated and degen tokens and oracles: which caller may apply which change *)
Inductive RateAdmin :=
| RegisterRate (k : RateKind) (t : AccountId) | UnregisterRate (t : AccountId) | UpdateRateExtra (t : AccountId) (i : SfraxInfo)
| RegisterDegen (t : AccountId) (src : DegenSrc) | UpdateDegen (t : AccountId) (src : DegenSrc) | UnregisterDegen (t : AccountId)
| RegisterConfig (k : OracleConfig) | UnregisterConfig (key : string) | UpdateConfig (k : OracleConfig).
Definition rate_admin_owner_only (a : RateAdmin) : bool :=
  match a with
  | UnregisterRate _ | UpdateDegen _ _ | UnregisterDegen _ | UnregisterConfig _ | UpdateConfig _ => true
  | _ => false
  end.
Definition rate_admin (s : RateState) (a : RateAdmin) : option RateState :=
  match a with
  | RegisterRate k t => rs_register_rate s k t
  | UnregisterRate t => Some (rs_unregister_rate s t)
  | UpdateRateExtra t i => rs_update_extra s t i
  | RegisterDegen t src => rs_register_degen s t src
  | UpdateDegen t src => rs_update_degen s t src
  | UnregisterDegen t => Some (rs_unregister_degen s t)
  | RegisterConfig k => rs_register_config s k
  | UnregisterConfig key => Some (rs_unregister_config s key)
  | UpdateConfig k => rs_update_config s k
  end.
Definition ex_rate_admin (c : Exchange) (e : Env) (a : RateAdmin) : option Exchange :=
  _ ← (if rate_admin_owner_only a then owner_call c e else guard_call c e);
  s ← rate_admin (ex_rates c) a; Some (ex_set_rates c s).
(** 458-467 add_degen_pool_limit, 469-478 update_degen_pool_limit, 480-487 remove_pool_limit *)
Definition is_degen_pool (c : Exchange) (pid : N) : option unit :=
  p ← ex_pool c pid; ensure (match pl_kind p with STABLE_SWAP KDegen => true | _ => false end).
Definition has_limit (c : Exchange) (pid : N) : bool :=
  match cf_limits (ex_cfg c) !! pid with Some _ => true | None => false end.
Definition ex_add_limit (c : Exchange) (e : Env) (pid x : N) : option Exchange :=
  _ ← guard_call c e; _ ← is_degen_pool c pid; _ ← ensure (negb (has_limit c pid));
  Some (ex_upd c (cf_set_limits (ex_cfg c) (<[pid := x]> (cf_limits (ex_cfg c))))).
Definition ex_update_limit (c : Exchange) (e : Env) (pid x : N) : option Exchange :=
  _ ← owner_call c e; _ ← is_degen_pool c pid; _ ← ensure (has_limit c pid);
  Some (ex_upd c (cf_set_limits (ex_cfg c) (<[pid := x]> (cf_limits (ex_cfg c))))).
Definition ex_remove_limit (c : Exchange) (e : Env) (pid : N) : option Exchange :=
  _ ← owner_call c e; _ ← ensure (has_limit c pid);
  Some (ex_upd c (cf_set_limits (ex_cfg c) (delete pid (cf_limits (ex_cfg c))))).
(** client_echo_limit.rs:83-170 *)
Inductive EchoList := EchoTokens | EchoSenders | EchoSecure.
Definition echo_get (l : EchoLists) (w : EchoList) : gset string :=
  match w with EchoTokens => el_tokens l | EchoSenders => el_senders l | EchoSecure => el_secure l end.
Definition echo_put (l : EchoLists) (w : EchoList) (s : gset string) : EchoLists :=
  match w with
  | EchoTokens => mkEchoLists s (el_senders l) (el_secure l)
  | EchoSenders => mkEchoLists (el_tokens l) s (el_secure l)
  | EchoSecure => mkEchoLists (el_tokens l) (el_senders l) s
  end.
Definition ex_extend_echo (c : Exchange) (e : Env) (w : EchoList) (l : list string) : option Exchange :=
  _ ← guard_call c e;
  s ← wl_extend (match w with EchoSenders => false | _ => true end) (echo_get (cf_echo (ex_cfg c)) w) l;
  Some (ex_upd c (cf_set_echo (ex_cfg c) (echo_put (cf_echo (ex_cfg c)) w s))).
Definition ex_remove_echo (c : Exchange) (e : Env) (w : EchoList) (l : list string) : option Exchange :=
  _ ← owner_call c e;
  s ← wl_remove (echo_get (cf_echo (ex_cfg c)) w) l;
  Some (ex_upd c (cf_set_echo (ex_cfg c) (echo_put (cf_echo (ex_cfg c)) w s))).

(** ** Oracle answers: the private callbacks of lib.rs:581-642 and degen.rs, at any time *)
Inductive OracleAnswer :=
| OaRate (t : AccountId) (a : RateAnswer)
| OaDegen (t : AccountId) (a : DegenAnswer)
| OaBatchPrice (decs : gmap AccountId N) (pd : PriceData)
| OaBatchPyth (ids : list (string * list AccountId)) (prices : gmap string PythPrice).
Definition ex_oracle (c : Exchange) (now : N) (a : OracleAnswer) : option Exchange :=
  s ← (match a with
       | OaRate t x => rs_rate_callback (ex_rates c) now t x
       | OaDegen t x => rs_degen_callback (ex_rates c) now t x
       | OaBatchPrice decs pd => rs_batch_price_callback (ex_rates c) now decs pd
       | OaBatchPyth ids prices => rs_batch_pyth_callback (ex_rates c) now ids prices
       end);
  Some (ex_set_rates c s).

(** ** lib.rs:149-167 new *)
Definition ex_new (self owner farm burrow : AccountId) (exchange_fee referral_fee : N) : option Exchange :=
  fee ← cadd W32 exchange_fee referral_fee;
  Some (mkExchange self
          (mkConfig owner farm burrow fee ∅ ∅ true ∅ ∅ (12 * 60) None ∅ ∅ (mkEchoLists ∅ ∅ ∅))
          [] ∅ ∅ ∅ ∅ (mkRateState ∅ ∅ None None)).

(** ** Every public method that changes the state or schedules something, except callbacks and
    ft_on_transfer (which only tokens call, see below) *)
Inductive Call :=
| CAddSimplePool (tokens : list AccountId) (fee : N)
| CAddStablePool (k : StableKind) (tokens : list AccountId) (decimals : list N) (fee amp : N)
| CExecute (l : list Action) (r : option AccountId) (skip : bool)
| CExecuteVa (use : gmap AccountId N) (l : list Action) (r : option AccountId) (skip : bool)
| CSwap (l : list Action) (r : option AccountId) (skip : bool)
| CSwapByOutput (l : list Action) (r : option AccountId) (skip : bool)
| CAddLiquidity (pid : N) (amounts : list N) (mins : option (list N))
| CAddStableLiquidity (pid : N) (amounts : list N) (min_shares : N)
| CRemoveLiquidity (pid shares : N) (mins : list N)
| CRemoveByTokens (pid : N) (amounts : list N) (max_burn : N)
| CRegisterTokens (ts : list AccountId)
| CUnregisterTokens (ts : list AccountId)
| CWithdraw (token : AccountId) (amount : N) (unregister : bool) (skip_unwrap : option bool)
| CClaimLostfound (token : AccountId)
| CMftRegister (id : string) (a : AccountId)
| CMftUnregister (id : string)
| CMftTransfer (id : string) (receiver : AccountId) (amount : N)
| CMftTransferCall (id : string) (receiver : AccountId) (amount : option N)
| CDonateShare (pid : N) (amount : option N) (unregister : bool)
| CDonateToken (token : AccountId) (amount : option N) (unregister : bool)
| CShadow (act : ShadowAction) (pid : N) (amount : option N)
| CLiquidation (liquidator victim : AccountId) (sid : string) (amount : N) (mins : list N)
| CStorageDeposit (a : option AccountId) (registration_only : bool)
| CStorageWithdraw (amount : N)
| CStorageUnregister
| CRegisterTwap (pid : N) | CUnregisterTwap (pid : N) | CModifyInterval (x : N) | CSyncTwap (pid : N)
| CSetOwner (a : AccountId) | CRetrieve (token : AccountId) (amount : N)
| CExtendGuardians (l : list AccountId) | CRemoveGuardians (l : list AccountId)
| CExtendPostfix (l : list string) | CRemovePostfix (l : list string)
| CModifyFarm (a : AccountId) | CModifyBurrow (a : AccountId) | CModifyWnear (a : AccountId)
| CChangeState (b : bool)
| CExtendWhitelist (l : list AccountId) | CRemoveWhitelist (l : list AccountId)
| CExtendFrozen (l : list AccountId) | CRemoveFrozen (l : list AccountId)
| CInsertReferral (a : AccountId) (fee : N) | CUpdateReferral (a : AccountId) (fee : N) | CRemoveReferral (a : AccountId)
| CModifyAdminFee (fee : N) | CModifyTotalFee (pid fee : N)
| CRemoveFeeLiquidity (pid shares : N) (mins : list N)
| CWithdrawOwner (token : AccountId) (amount : N) (skip_unwrap : option bool)
| CRamp (pid amp time : N) | CStopRamp (pid : N)
| CRateAdmin (a : RateAdmin)
| CAddLimit (pid x : N) | CUpdateLimit (pid x : N) | CRemoveLimit (pid : N)
| CExtendEcho (w : EchoList) (l : list string) | CRemoveEcho (w : EchoList) (l : list string).

Definition quiet (x : option Exchange) : option (Exchange * list Promise) := c ← x; Some (c, []).
Definition quiet2 {A} (x : option (Exchange * A)) : option (Exchange * list Promise) := '(c, _a) ← x; Some (c, []).
Definition keep2 {A} (x : option (Exchange * list Promise * A)) : option (Exchange * list Promise) :=
  '(c, ps, _a) ← x; Some (c, ps).

Definition ex_call (c : Exchange) (e : Env) (x : Call) : option (Exchange * list Promise) :=
  match x with
  | CAddSimplePool tokens fee => ex_add_simple_pool c e tokens fee
  | CAddStablePool k tokens decimals fee amp => ex_add_stable_pool c e k tokens decimals fee amp
  | CExecute l r skip => quiet2 (ex_execute_actions c e l r skip)
  | CExecuteVa use l r skip => quiet2 (ex_execute_in_va c e use l r skip)
  | CSwap l r skip => quiet2 (ex_swap c e l r skip)
  | CSwapByOutput l r skip => quiet2 (ex_swap_by_output c e l r skip)
  | CAddLiquidity pid am mins => keep2 (ex_add_liquidity c e pid am mins)
  | CAddStableLiquidity pid am mn => keep2 (ex_add_stable_liquidity c e pid am mn)
  | CRemoveLiquidity pid sh mins => quiet2 (ex_remove_liquidity c e pid sh mins)
  | CRemoveByTokens pid am mx => quiet2 (ex_remove_by_tokens c e pid am mx)
  | CRegisterTokens ts => quiet (ex_register_tokens c e ts)
  | CUnregisterTokens ts => quiet (ex_unregister_tokens c e ts)
  | CWithdraw t am u s => ex_withdraw c e t am u s
  | CClaimLostfound t => ex_claim_lostfound c e t
  | CMftRegister id a => ex_mft_register c e id a
  | CMftUnregister id => ex_mft_unregister c e id
  | CMftTransfer id r am => quiet (ex_mft_transfer_call_free c e id r am)
  | CMftTransferCall id r am => ex_mft_transfer_call c e id r am
  | CDonateShare pid am u => ex_donate_share c e pid am u
  | CDonateToken t am u => quiet (ex_donate_token c e t am u)
  | CShadow act pid am => ex_shadow_action c e act pid am
  | CLiquidation l v sid am mins => ex_burrow_liquidation c e l v sid am mins
  | CStorageDeposit a ro => ex_storage_deposit c e a ro
  | CStorageWithdraw am => ex_storage_withdraw c e am
  | CStorageUnregister => ex_storage_unregister c e
  | CRegisterTwap pid => quiet (ex_register_twap c e pid)
  | CUnregisterTwap pid => quiet (ex_unregister_twap c e pid)
  | CModifyInterval x => quiet (ex_modify_interval c e x)
  | CSyncTwap pid => quiet (ex_sync_twap c e pid)
  | CSetOwner a => quiet (ex_set_owner c e a)
  | CRetrieve t am => ex_retrieve c e t am
  | CExtendGuardians l => quiet (ex_extend_guardians c e l)
  | CRemoveGuardians l => quiet (ex_remove_guardians c e l)
  | CExtendPostfix l => quiet (ex_extend_postfix c e l)
  | CRemovePostfix l => quiet (ex_remove_postfix c e l)
  | CModifyFarm a => quiet (ex_modify_farm c e a)
  | CModifyBurrow a => quiet (ex_modify_burrow c e a)
  | CModifyWnear a => quiet (ex_modify_wnear c e a)
  | CChangeState b => quiet (ex_change_state c e b)
  | CExtendWhitelist l => quiet (ex_extend_whitelist c e l)
  | CRemoveWhitelist l => quiet (ex_remove_whitelist c e l)
  | CExtendFrozen l => quiet (ex_extend_frozen c e l)
  | CRemoveFrozen l => quiet (ex_remove_frozen c e l)
  | CInsertReferral a fee => quiet (ex_put_referral false c e a fee)
  | CUpdateReferral a fee => quiet (ex_put_referral true c e a fee)
  | CRemoveReferral a => quiet (ex_remove_referral c e a)
  | CModifyAdminFee fee => quiet (ex_modify_admin_fee c e fee)
  | CModifyTotalFee pid fee => quiet (ex_modify_total_fee c e pid fee)
  | CRemoveFeeLiquidity pid sh mins => quiet (ex_remove_fee_liquidity c e pid sh mins)
  | CWithdrawOwner t am s => ex_withdraw_owner c e t am s
  | CRamp pid amp time => quiet (ex_ramp c e pid amp time)
  | CStopRamp pid => quiet (ex_stop_ramp c e pid)
  | CRateAdmin a => quiet (ex_rate_admin c e a)
  | CAddLimit pid x => quiet (ex_add_limit c e pid x)
  | CUpdateLimit pid x => quiet (ex_update_limit c e pid x)
  | CRemoveLimit pid => quiet (ex_remove_limit c e pid)
  | CExtendEcho w l => quiet (ex_extend_echo c e w l)
  | CRemoveEcho w l => quiet (ex_remove_echo c e w l)
  end.
