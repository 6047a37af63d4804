(** * Views of the settings, of fees, of lists kept by the owner and of pool shares as tokens.
    /repo/ref-exchange/src/views.rs, owner.rs, multi_fungible_token.rs.
    A set is shown as a list of its elements; their order is that of [elements], in the code it depends on the history.
    The version, the names and the symbols are left out (text). *)
From Verif Require Import Base SimplePool StableMath StablePool Rates Account Pool Exchange Views Listing.

(** views.rs:12-27 ContractMetadata *)
Record Metadata := mkMetadata {
  md_owner : AccountId;
  md_farm : AccountId;
  md_burrow : AccountId;
  md_guardians : list AccountId;
  md_pools : N;
  md_running : bool;
  md_admin_fee : N;
  md_interval : N;
  md_wnear : option AccountId;
  md_postfix : list string;
}.
(** views.rs:364-378 metadata *)
Definition v_metadata (c : Exchange) : Metadata :=
  let k := ex_cfg c in
  mkMetadata (cf_owner k) (cf_farm k) (cf_burrow k) (elements (cf_guardians k)) (v_number_of_pools c) (cf_running k)
    (cf_admin_fee k) (cf_interval k) (cf_wnear k) (elements (cf_postfix k)).
(** views.rs:381-383 get_guardians *)
Definition v_guardians (c : Exchange) : list AccountId := elements (cf_guardians (ex_cfg c)).
(** owner.rs:22-24 get_owner *)
Definition v_owner (c : Exchange) : AccountId := cf_owner (ex_cfg c).
(** views.rs:612-614 get_frozenlist_tokens, 617-619 get_whitelisted_tokens *)
Definition v_frozen_tokens (c : Exchange) : list AccountId := elements (cf_frozen (ex_cfg c)).
Definition v_whitelisted_tokens (c : Exchange) : list AccountId := elements (cf_whitelist (ex_cfg c)).
(** views.rs:622-626 get_user_whitelisted_tokens; account_deposit.rs:110-118 get_tokens: the entries of both formats *)
Definition v_user_tokens (c : Exchange) (a : AccountId) : list AccountId :=
  match ex_account c a with
  | Some acc => (map_to_list (ac_tokens acc)).*1 ++ (map_to_list (ac_legacy acc)).*1
  | None => []
  end.
(** views.rs:541-551 get_account_basic_info: the NEAR paid for storage (storage_used is always 0, account_deposit.rs:93) *)
Definition v_account_near (c : Exchange) (a : AccountId) : option N := ac_near <$> ex_account c a.

(** views.rs:455-457 get_pool_fee, pool.rs:139-146 get_fee *)
Definition pl_get_fee (p : Pool) : N := match p with PSimple q => sp_fee q | PStable q => st_fee q end.
Definition v_pool_fee (c : Exchange) (pid : N) : option N := p ← ex_pool c pid; Some (pl_get_fee p).
(** views.rs:481-483 get_pool_share_price, pool.rs:159-166: unimplemented for simple pools *)
Definition v_pool_share_price (c : Exchange) (now pid : N) : option N :=
  p ← ex_pool c pid;
  match p with PSimple _ => None | PStable q => st_get_share_price q (pl_env (ex_rates c) now q) end.

(** A page of an UnorderedMap: the entries at the positions [from], ... of its list of keys *)
Definition v_map_page {K A} `{Countable K} (m : gmap K A) (keys : list K) (from limit : option N) : option (list (K * A)) :=
  let n := N.of_nat (length keys) in
  v_page (fun i => k ← keys !! N.to_nat i; x ← m !! k; Some (k, x)) n (default 0 from) (default n limit).
(** views.rs:596-609 list_referrals *)
Definition v_list_referrals (c : Exchange) := v_map_page (cf_referrals (ex_cfg c)).
(** views.rs:998-1009 get_pool_limit_paged *)
Definition v_pool_limits (c : Exchange) := v_map_page (cf_limits (ex_cfg c)).

(** multi_fungible_token.rs:141-144 mft_balance_of *)
Definition v_mft_balance (c : Exchange) (id : string) (a : AccountId) : option N := ex_mft_balance c id a.
(** 148-156 mft_total_supply: unimplemented for tokens *)
Definition v_mft_supply (c : Exchange) (id : string) : option N := pid ← mft_pool_of id; p ← ex_pool c pid; Some (pl_supply p).
(** 158-170 mft_has_registered *)
Definition v_mft_registered (c : Exchange) (id : string) (a : AccountId) : bool :=
  match mft_pool_of id with
  | Some pid => match ex_pool c pid with Some p => pl_share_has_registered p a | None => false end
  | None => false
  end.
(** 349-367 mft_metadata: the decimals *)
Definition v_mft_decimals (c : Exchange) (id : string) : option N := pid ← mft_pool_of id; p ← ex_pool c pid; Some (pl_share_decimal p).
