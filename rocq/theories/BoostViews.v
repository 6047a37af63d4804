(** * Views of the boost farming contract that compute something (paths are relative to mock-boost-farming/src) *)
From Verif Require Import Base Boost.

(** farmer.rs:101-104 for one farm: the reward a claim would pay *)
Definition calc_farm (power : N) (rps : gmap N N) (i : N) (f : BFarm) : option (BFarm * N) :=
  diff ← csub (bf_rps f) (default 0 (rps !! i));
  p ← cmul W384 diff power;
  amount ← fit W128 (p / B_DIV);
  Some (f, amount).
(** view.rs:147-159 get_unclaimed_rewards, farmer.rs:72-125 internal_calc_farmer_claim *)
Definition v_unclaimed (fl : Floats) (now : N) (c : BState) (a : AccountId) (s : SeedId) : option (gmap AccountId N) :=
  F ← b_farmers c !! a; sd ← get_seed now c s;
  k ← (match b_stakes F !! s with
       | Some k => Some k
       | None => r ← gen_ratios fl (b_cfg c) s F; Some (empty_stake r)
       end);
  power ← seed_power fl k;
  res ← map_all (calc_farm power (k_rps k)) (bs_farms sd);
  credit (map_to_list res) ∅.
(** view.rs:137-144 get_farm: the seed is brought up to date first; [None] panics *)
Definition v_farm (now : N) (c : BState) (s : SeedId) (i : N) : option (option BFarm) :=
  sd ← get_seed now c s; Some (bs_farms sd !! i).
(** storage_impl.rs:100-109 storage_balance_of: total and available *)
Definition v_storage_balance (c : BState) (a : AccountId) : option (N * N) :=
  match b_farmers c !! a with Some _ => Some (STORAGE_BALANCE_MIN_BOUND, 0) | None => None end.
