(** * Views of rates, prices, limits and staked shares (ref-exchange/src/views.rs)

    JSON encoding is not modelled.  [storage_used] of get_account_basic_info is always 0 (account_deposit.rs:93) and left out. *)
From Verif Require Import Base SimplePool StableMath StablePool Rates Account Pool Exchange Views Listing.

(** [iter().map(..).collect()] over a map with a function that may panic *)
Definition map_each {A B} (f : A -> option B) (m : gmap AccountId A) : option (gmap AccountId B) :=
  if decide (map_Forall (fun _ x => is_Some (f x)) m) then Some (omap f m) else None.

(** views.rs:37-43 RatedTokenInfo; rate.rs:89-96 get_type *)
Definition rate_type (r : Rate) : string :=
  match rt_kind r with RStnear => "STNEAR" | RLinear => "LINEAR" | RNearx => "NEARX" | RSfrax _ => "SFRAX" end.
Record RatedInfo := mkRatedInfo { ri_type : string; ri_rate : N; ri_at : N; ri_valid : bool; ri_extra : option SfraxInfo }.
(** views.rs:695-715 for one token; are_actual panics on overflow (stnear_rate.rs:29-31) *)
Definition rated_info (now : N) (r : Rate) : option RatedInfo :=
  x ← cadd W64 (rt_at r) RATE_EXPIRE_TS;
  Some (mkRatedInfo (rate_type r) (rt_rate r) (rt_at r) (now <=? x) (match rt_kind r with RSfrax i => Some i | _ => None end)).
(** views.rs:687-718 list_rated_tokens *)
Definition v_rated_tokens (c : Exchange) (now : N) : option (gmap AccountId RatedInfo) :=
  map_each (rated_info now) (rs_rates (ex_rates c)).

(** views.rs:48-78 DegenTokenInfo: the type with the decimals or the price identifier is [dg_src] *)
Record DegenInfo := mkDegenInfo { di_src : DegenSrc; di_price : N; di_at : N; di_valid : bool }.
(** views.rs:60-78; price_oracle.rs:46-52, pyth_oracle.rs:37-43: without price or config this panics *)
Definition degen_info (rs : RateState) (now : N) (d : Degen) : option DegenInfo :=
  '(price, at_) ← dg_info d;
  ex ← degen_expire rs d;
  x ← cadd W64 at_ ex;
  Some (mkDegenInfo (dg_src d) price at_ (now <=? x)).
(** views.rs:733-742 list_degen_tokens *)
Definition v_degen_tokens (c : Exchange) (now : N) : option (gmap AccountId DegenInfo) :=
  map_each (degen_info (ex_rates c) now) (rs_degens (ex_rates c)).
(** views.rs:725-731 batch_get_degen_tokens: the result is a map, here the list it is made from *)
Definition v_batch_degen_tokens (c : Exchange) (now : N) (ts : list AccountId) : option (list (AccountId * option DegenInfo)) :=
  mapM_ (fun t => match rs_degens (ex_rates c) !! t with
                  | Some d => i ← degen_info (ex_rates c) now d; Some (t, Some i)
                  | None => Some (t, None)
                  end) ts.

(** views.rs:990-992 get_degen_pool_tvl, pool.rs:168-178 *)
Definition v_degen_tvl (c : Exchange) (now pid : N) : option N :=
  p ← ex_pool c pid;
  match p with
  | PStable q =>
      match st_kind q with
      | KDegen => _ ← st_assert_rates_valid q (pl_env (ex_rates c) now q); st_get_tvl q (pl_env (ex_rates c) now q)
      | _ => None
      end
  | PSimple _ => None
  end.
(** views.rs:994-996 get_pool_limit_by_pool_id *)
Definition v_pool_limit (c : Exchange) (pid : N) : option N := cf_limits (ex_cfg c) !! pid.

(** views.rs:553-563 get_shadow_records *)
Definition v_shadow_records (c : Exchange) (a : AccountId) : gmap N ShadowRecord :=
  match ex_account c a with Some acc => ac_shadow acc | None => ∅ end.
(** views.rs:1011-1024 batch_views *)
Definition v_batch (c : Exchange) (now : N) (a : option AccountId) (pids : option (list N))
  : option (option (gmap N ShadowRecord) * option (gmap N (N * list (AccountId * N))) * option (list N)) :=
  assets ← (match pids with Some l => m ← v_lpt_assets c now l ∅; Some (Some m) | None => Some None end);
  shares ← (match a, pids with Some a, Some l => s ← v_get_pool_shares_batch c l a; Some (Some s) | _, _ => Some None end);
  Some (v_shadow_records c <$> a, assets, shares).
