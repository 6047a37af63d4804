(** * Model of the boost farming contract (crate mock-boost-farming, paths are relative to mock-boost-farming/src)

    Simplifications (also listed in DESIGN.md):
    - a FarmId, in the code the string "{seed_id}#{index}" (utils.rs:95-103), is the pair
      (seed_id, index).  Within a seed and within a farmer's stake farms are keyed by the index.
    - The versioned wrappers VSeed, VSeedFarm, VFarmer and VersionedContractData have one version in
      use and are dropped; legacy.rs and [migrate] (the identity on the current version) are not modelled.
    - [SEEDS] (seed.rs:3, 94-113) caches within one call the seeds already loaded and updated.  [get_seed]
      below updates at every load; a second update in the same block changes nothing.
    - [SeedFarm.status] is not stored (borsh_skip, seed_farm.rs:78) and recomputed by every update: it is
      the function [farm_status] of the farm and of the time.
    - The iteration order of HashMaps is not modelled; sums are over the whole map, and a sum of
      amounts overflows in one order iff it does in every order.
    - f64: the boost ratio and the extra power are computed in floating point (booster.rs:68-77,
      farmer_seed.rs:29).  A ratio is a code (its 64 bits), and the two float expressions are the fields of
      a parameter [Floats] of the model: everything is proved for every possible behaviour of them, and
      hypotheses about them (such as "0 times a ratio is 0") are stated in the theorems.
    - unlock_and_withdraw_seed, withdraw_reward, withdraw_seed_slashed, return_seed_lostfound and upgrade
      are commented out in the source, so the contract never sends a token, the private callbacks can never be
      called and seeds_lostfound stays empty. *)
From Verif Require Import Base.

Notation SeedId := string (only parsing).

(** utils.rs:10-31, big_decimal.rs:25-26 *)
Definition B_DIV : N := 10 ^ 27.
Definition NANOS_PER_DAY : N := 24 * 60 * 60 * 10 ^ 9.
Definition B_MIN_SEED_DEPOSIT : N := 10 ^ 18.
Definition BP_DENOM : N := 10000.
Definition MIN_LOCKING_REWARD_RATIO : N := 10000.
Definition MAX_NUM_SEEDS_PER_BOOSTER : N := 16.
Definition STORAGE_BALANCE_MIN_BOUND : N := 10 ^ 23.
Definition DEFAULT_SEED_MIN_LOCKING_DURATION_SEC : N := 3600 * 24 * 30.

(** utils.rs:83-89 to_nano (u32 * 10^9 fits in a u64), nano_to_sec ([as u32] truncates) *)
Definition b_nano (sec : N) : N := sec * 10 ^ 9.
Definition b_sec (ts : N) : N := (ts / 10 ^ 9) mod W32.

(** ** The floating point computations *)
Record Floats := mkFloats {
  (* booster.rs:69-75: the ratio for a booster balance, 10^decimal and log_base *)
  fl_ratio : N -> N -> N -> N;
  (* farmer_seed.rs:29: [((base_power as f64) * ratio) as u128] *)
  fl_extra : N -> N -> N;
}.

(** ** State *)
(** seed_farm.rs:47-80 SeedFarm with its FarmTerms (seed_farm.rs:6-11) *)
Record BFarm := mkBFarm {
  bf_token : AccountId;   (* terms.reward_token *)
  bf_start : N;           (* terms.start_at : u32 *)
  bf_daily : N;           (* terms.daily_reward *)
  bf_total : N;           (* total_reward *)
  bf_at : N;              (* distributed_at : u64 *)
  bf_dist : N;            (* distributed_reward *)
  bf_claimed : N;         (* claimed_reward *)
  bf_benef : N;           (* amount_of_beneficiary *)
  bf_rps : N;             (* rps : BigDecimal, the U384 inside *)
}.
(** seed.rs:7-26 Seed *)
Record BSeed := mkBSeed {
  bs_decimal : N;
  bs_farms : gmap N BFarm;
  bs_next : N;            (* next_index : u32 *)
  bs_amount : N;          (* total_seed_amount *)
  bs_power : N;           (* total_seed_power *)
  bs_min : N;             (* min_deposit *)
  bs_slash : N;           (* slash_rate : u32 *)
  bs_minlock : N;         (* min_locking_duration_sec : u32 *)
}.
(** farmer_seed.rs:6-24 FarmerSeed *)
Record BStake := mkBStake {
  k_free : N;             (* free_amount *)
  k_locked : N;           (* locked_amount *)
  k_x : N;                (* x_locked_amount *)
  k_unlock : N;           (* unlock_timestamp : u64 *)
  k_dur : N;              (* duration_sec : u32 *)
  k_ratios : gmap SeedId N;  (* boost_ratios *)
  k_rps : gmap N N;       (* user_rps *)
}.
(** farmer.rs:6-15 Farmer *)
Record BFarmer := mkBFarmer {
  b_sponsor : AccountId;
  b_rewards : gmap AccountId N;
  b_stakes : gmap SeedId BStake;
}.
(** lib.rs:68-85 Config; booster.rs:5-9 BoosterInfo is the pair of booster_decimal and affected_seeds *)
Record BConfig := mkBConfig {
  c_slash : N;            (* seed_slash_rate *)
  c_boosters : gmap SeedId (N * gmap SeedId N);
  c_max_bfarms : N;       (* max_num_farms_per_booster *)
  c_max_farms : N;        (* max_num_farms_per_seed *)
  c_max_dur : N;          (* maximum_locking_duration_sec *)
  c_max_mult : N;         (* max_locking_multiplier *)
}.
(** lib.rs:130-146 ContractData *)
Record BState := mkBState {
  b_owner : AccountId;
  b_running : bool;
  b_ops : gset AccountId;
  b_cfg : BConfig;
  b_seeds : gmap SeedId BSeed;
  b_farmers : gmap AccountId BFarmer;
  b_outdated : gmap (SeedId * N) BFarm;
  b_slashed : gmap SeedId N;
  b_farmer_count : N;
  b_farm_count : N;
}.

(** lib.rs:87-98, 163-181 *)
Definition default_config : BConfig := mkBConfig 200 ∅ 64 32 (3600 * 24 * 30 * 12) 20000.
Definition boost_new (owner : AccountId) : BState :=
  mkBState owner true ∅ default_config ∅ ∅ ∅ ∅ 0 0.

(** field updates *)
Definition set_seeds (c : BState) (m : gmap SeedId BSeed) : BState :=
  mkBState (b_owner c) (b_running c) (b_ops c) (b_cfg c) m (b_farmers c) (b_outdated c) (b_slashed c)
           (b_farmer_count c) (b_farm_count c).
Definition set_farmers (c : BState) (m : gmap AccountId BFarmer) : BState :=
  mkBState (b_owner c) (b_running c) (b_ops c) (b_cfg c) (b_seeds c) m (b_outdated c) (b_slashed c)
           (b_farmer_count c) (b_farm_count c).
Definition set_cfg (c : BState) (g : BConfig) : BState :=
  mkBState (b_owner c) (b_running c) (b_ops c) g (b_seeds c) (b_farmers c) (b_outdated c) (b_slashed c)
           (b_farmer_count c) (b_farm_count c).
Definition set_outdated (c : BState) (m : gmap (SeedId * N) BFarm) : BState :=
  mkBState (b_owner c) (b_running c) (b_ops c) (b_cfg c) (b_seeds c) (b_farmers c) m (b_slashed c)
           (b_farmer_count c) (b_farm_count c).
Definition set_slashed (c : BState) (m : gmap SeedId N) : BState :=
  mkBState (b_owner c) (b_running c) (b_ops c) (b_cfg c) (b_seeds c) (b_farmers c) (b_outdated c) m
           (b_farmer_count c) (b_farm_count c).
Definition set_farmer_count (c : BState) (n : N) : BState :=
  mkBState (b_owner c) (b_running c) (b_ops c) (b_cfg c) (b_seeds c) (b_farmers c) (b_outdated c) (b_slashed c)
           n (b_farm_count c).
Definition set_farm_count (c : BState) (n : N) : BState :=
  mkBState (b_owner c) (b_running c) (b_ops c) (b_cfg c) (b_seeds c) (b_farmers c) (b_outdated c) (b_slashed c)
           (b_farmer_count c) n.
Definition set_b_owner (c : BState) (o : AccountId) : BState :=
  mkBState o (b_running c) (b_ops c) (b_cfg c) (b_seeds c) (b_farmers c) (b_outdated c) (b_slashed c)
           (b_farmer_count c) (b_farm_count c).
Definition set_b_running (c : BState) (r : bool) : BState :=
  mkBState (b_owner c) r (b_ops c) (b_cfg c) (b_seeds c) (b_farmers c) (b_outdated c) (b_slashed c)
           (b_farmer_count c) (b_farm_count c).
Definition set_b_ops (c : BState) (o : gset AccountId) : BState :=
  mkBState (b_owner c) (b_running c) o (b_cfg c) (b_seeds c) (b_farmers c) (b_outdated c) (b_slashed c)
           (b_farmer_count c) (b_farm_count c).
Definition with_farms (sd : BSeed) (m : gmap N BFarm) : BSeed :=
  mkBSeed (bs_decimal sd) m (bs_next sd) (bs_amount sd) (bs_power sd) (bs_min sd) (bs_slash sd) (bs_minlock sd).
Definition with_next (sd : BSeed) (n : N) : BSeed :=
  mkBSeed (bs_decimal sd) (bs_farms sd) n (bs_amount sd) (bs_power sd) (bs_min sd) (bs_slash sd) (bs_minlock sd).
Definition with_total (sd : BSeed) (a p : N) : BSeed :=
  mkBSeed (bs_decimal sd) (bs_farms sd) (bs_next sd) a p (bs_min sd) (bs_slash sd) (bs_minlock sd).
Definition with_terms (sd : BSeed) (m sl ml : N) : BSeed :=
  mkBSeed (bs_decimal sd) (bs_farms sd) (bs_next sd) (bs_amount sd) (bs_power sd) m sl ml.
Definition with_rewards (F : BFarmer) (m : gmap AccountId N) : BFarmer := mkBFarmer (b_sponsor F) m (b_stakes F).
Definition with_stake (F : BFarmer) (s : SeedId) (k : BStake) : BFarmer :=
  mkBFarmer (b_sponsor F) (b_rewards F) (<[s := k]> (b_stakes F)).
Definition with_rps (k : BStake) (m : gmap N N) : BStake :=
  mkBStake (k_free k) (k_locked k) (k_x k) (k_unlock k) (k_dur k) (k_ratios k) m.
Definition with_ratios (k : BStake) (m : gmap SeedId N) : BStake :=
  mkBStake (k_free k) (k_locked k) (k_x k) (k_unlock k) (k_dur k) m (k_rps k).
Definition with_free (k : BStake) (n : N) : BStake :=
  mkBStake n (k_locked k) (k_x k) (k_unlock k) (k_dur k) (k_ratios k) (k_rps k).
Definition with_lock (k : BStake) (l x u d : N) : BStake :=
  mkBStake (k_free k) l x u d (k_ratios k) (k_rps k).

(** [iter()] over a map applying a function that may panic, collecting the results *)
Definition map_all {A B} (g : N -> A -> option B) (m : gmap N A) : option (gmap N B) :=
  if decide (map_Forall (fun i x => is_Some (g i x)) m) then Some (map_imap g m) else None.

(** ** seed_farm.rs *)
Inductive BStatus := BCreated | BPending | BRunning | BEnded.
Global Instance BStatus_eq_dec : EqDecision BStatus. Proof. solve_decision. Defined.

(** seed_farm.rs:104-114 *)
Definition farm_status (now : N) (f : BFarm) : BStatus :=
  if (bf_start f =? 0) || (now <=? b_nano (bf_start f)) then BCreated
  else if (bf_total f =? 0) && (b_nano (bf_start f) <? now) then BPending
  else if (0 <? bf_total f) && (bf_total f <=? bf_dist f) then BEnded
  else BRunning.

(** seed_farm.rs:83-95 *)
Definition farm_new (token : AccountId) (start daily : N) : BFarm :=
  mkBFarm token start daily 0 (b_nano start) 0 0 0 0.

(** seed_farm.rs:116-150; big_decimal.rs [from], [div_u128], [add] *)
Definition farm_update (now power : N) (f : BFarm) : option BFarm :=
  if now <=? bf_at f then Some f
  else match farm_status now f with
  | BEnded => Some (mkBFarm (bf_token f) (bf_start f) (bf_daily f) (bf_total f) now (bf_dist f)
                            (bf_claimed f) (bf_benef f) (bf_rps f))
  | BRunning =>
      left ← csub (bf_total f) (bf_dist f);
      due ← u128_ratio (bf_daily f) (now - bf_at f) NANOS_PER_DAY;
      let reward := N.min left due in
      d ← cadd W128 (bf_dist f) reward;
      if 0 <? power then
        inc ← cmul W384 reward B_DIV;
        r ← cadd W384 (bf_rps f) (inc / power);
        Some (mkBFarm (bf_token f) (bf_start f) (bf_daily f) (bf_total f) now d (bf_claimed f) (bf_benef f) r)
      else
        b ← cadd W128 (bf_benef f) reward;
        Some (mkBFarm (bf_token f) (bf_start f) (bf_daily f) (bf_total f) now d (bf_claimed f) b (bf_rps f))
  | _ => Some f
  end.

(** seed_farm.rs:152-160 *)
Definition add_reward (now : N) (f : BFarm) (token : AccountId) (amount : N) : option BFarm :=
  _ ← ensure (String.eqb (bf_token f) token);
  t ← cadd W128 (bf_total f) amount;
  Some (if bf_start f =? 0
        then mkBFarm (bf_token f) (b_sec now) (bf_daily f) t now (bf_dist f) (bf_claimed f) (bf_benef f) (bf_rps f)
        else mkBFarm (bf_token f) (bf_start f) (bf_daily f) t (bf_at f) (bf_dist f) (bf_claimed f) (bf_benef f) (bf_rps f)).

(** seed_farm.rs:162-167 *)
Definition finalize (now : N) (f : BFarm) : option BFarm :=
  _ ← ensure (bool_decide (farm_status now f = BEnded));
  b ← csub (bf_dist f) (bf_claimed f);
  Some (mkBFarm (bf_token f) (bf_start f) (bf_daily f) (bf_total f) (bf_at f) (bf_dist f) (bf_claimed f) b (bf_rps f)).

(** ** seed.rs *)
(** seed.rs:49-58 *)
Definition seed_update (now : N) (sd : BSeed) : option BSeed :=
  m ← map_all (fun _ f => farm_update now (bs_power sd) f) (bs_farms sd);
  Some (with_farms sd m).
(** seed.rs:90-105 *)
Definition get_seed (now : N) (c : BState) (s : SeedId) : option BSeed :=
  sd ← b_seeds c !! s; seed_update now sd.
(** seed.rs:107-113 *)
Definition set_seed (c : BState) (s : SeedId) (sd : BSeed) : BState := set_seeds c (<[s := sd]> (b_seeds c)).
(** farmer.rs:149-151 *)
Definition set_farmer (c : BState) (a : AccountId) (F : BFarmer) : BState := set_farmers c (<[a := F]> (b_farmers c)).

(** ** farmer_seed.rs *)
(** farmer_seed.rs:33-35 *)
Definition basic_power (k : BStake) : option N := cadd W128 (k_free k) (k_x k).
(** farmer_seed.rs:27-31 *)
Definition seed_power (fl : Floats) (k : BStake) : option N :=
  base ← basic_power k;
  extra ← fit W128 (map_fold (fun _ r acc => fl_extra fl base r + acc) 0 (k_ratios k));
  cadd W128 base extra.

(** farmer_seed.rs:156-163 *)
Definition compute_x (g : BConfig) (amount dur : N) : option N :=
  m ← csub (c_max_mult g) MIN_LOCKING_REWARD_RATIO;
  n ← cmul W128 m (b_nano dur);
  d ← cmul W128 (b_nano (c_max_dur g)) MIN_LOCKING_REWARD_RATIO;
  e ← u128_ratio amount n d;
  cadd W128 amount e.

(** the common body of farmer_seed.rs:57-72 and 87-102 *)
Definition relock (now : N) (g : BConfig) (k : BStake) (amount dur : N) : option BStake :=
  un ← cadd W64 now (b_nano dur);
  x ← (if (0 <? k_unlock k) && (now <? k_unlock k) then
         _ ← ensure (k_unlock k <=? un);
         r ← compute_x g (k_locked k) dur;
         e ← compute_x g amount dur;
         cadd W128 (N.max (k_x k) r) e
       else
         t ← cadd W128 (k_locked k) amount;
         compute_x g t dur);
  l ← cadd W128 (k_locked k) amount;
  Some (with_lock k l x un dur).

(** farmer_seed.rs:41-45 *)
Definition add_free (fl : Floats) (k : BStake) (amount : N) : option (BStake * N) :=
  prev ← seed_power fl k;
  fr ← cadd W128 (k_free k) amount;
  let k' := with_free k fr in
  p ← seed_power fl k'; inc ← csub p prev; Some (k', inc).
(** farmer_seed.rs:54-75 *)
Definition add_lock (fl : Floats) (now : N) (g : BConfig) (k : BStake) (amount dur : N) : option (BStake * N) :=
  prev ← seed_power fl k;
  k' ← relock now g k amount dur;
  p ← seed_power fl k'; inc ← csub p prev; Some (k', inc).
(** farmer_seed.rs:77-105 *)
Definition free_to_lock (fl : Floats) (now : N) (g : BConfig) (k : BStake) (amount dur : N) : option (BStake * N) :=
  fr ← csub (k_free k) amount;
  prev ← seed_power fl k;
  _ ← ensure (dur <=? c_max_dur g);
  k' ← relock now g (with_free k fr) amount dur;
  p ← seed_power fl k'; inc ← csub p prev; Some (k', inc).
(** farmer_seed.rs:129-153: the new stake, the lost power and the slashed amount *)
Definition unlock_slashed (fl : Floats) (now : N) (k : BStake) (amount rate : N) : option (BStake * N * N) :=
  prev ← seed_power fl k;
  _ ← ensure (now <? k_unlock k);
  _ ← ensure ((amount <=? k_locked k) && negb (amount =? 0));
  full ← u128_ratio amount rate BP_DENOM;
  slash ← u128_ratio full (k_unlock k - now) (b_nano (k_dur k));
  rest ← csub (k_locked k) amount;
  back ← csub amount slash;
  fr ← cadd W128 (k_free k) back;
  k' ← (if amount <? k_locked k then
          x ← u128_ratio (k_x k) rest (k_locked k);
          _ ← ensure (x <? k_x k);
          Some (with_lock (with_free k fr) rest x (k_unlock k) (k_dur k))
        else Some (with_lock (with_free k fr) rest 0 0 0));
  p ← seed_power fl k'; dec ← csub prev p; Some (k', dec, slash).

(** ** booster.rs *)
(** booster.rs:62-78 for one booster that boosts the seed (lib.rs:113-119): [None] panics, [Some None] no entry *)
Definition ratio_of (fl : Floats) (s : SeedId) (F : BFarmer) (b : SeedId) (info : N * gmap SeedId N)
  : option (option N) :=
  if String.eqb b s then Some None else
  match snd info !! s with
  | None => Some None
  | Some log_base =>
      bal ← (match b_stakes F !! b with Some k => basic_power k | None => Some 0 end);
      if (0 <? bal) && (0 <? log_base) then
        base ← cpow W128 10 (fst info);
        Some (Some (fl_ratio fl bal base log_base))
      else Some None
  end.
(** booster.rs:59-80 *)
Definition gen_ratios (fl : Floats) (g : BConfig) (s : SeedId) (F : BFarmer) : option (gmap SeedId N) :=
  if decide (map_Forall (fun b i => is_Some (ratio_of fl s F b i)) (c_boosters g))
  then Some (map_imap (fun b i => default None (ratio_of fl s F b i)) (c_boosters g))
  else None.

(** booster.rs:38-47 *)
Definition affected_count (c : BState) (aff : gmap SeedId N) : option N :=
  _ ← ensure (bool_decide (map_Forall (fun s _ => is_Some (b_seeds c !! s)) aff));
  fit W32 (map_fold (fun s _ acc =>
             N.of_nat (match b_seeds c !! s with Some sd => size (bs_farms sd) | None => 0%nat end) + acc) 0 aff).
Definition booster_ok (c : BState) (aff : gmap SeedId N) : bool :=
  match affected_count c aff with Some n => n <=? c_max_bfarms (b_cfg c) | None => false end.
(** booster.rs:49-54 *)
Definition assert_boosters (c : BState) : option unit :=
  ensure (bool_decide (map_Forall (fun _ i => booster_ok c (snd i) = true) (c_boosters (b_cfg c)))).

(** ** farmer.rs *)
(** farmer.rs:88-96 *)
Definition empty_stake (ratios : gmap SeedId N) : BStake := mkBStake 0 0 0 0 0 ratios ∅.
(** farmer.rs:101-114 and seed.rs:60-65 for one farm: the farm with the claim recorded, and the claim *)
Definition claim_farm (power : N) (rps : gmap N N) (i : N) (f : BFarm) : option (BFarm * N) :=
  diff ← csub (bf_rps f) (default 0 (rps !! i));
  p ← cmul W384 diff power;
  amount ← fit W128 (p / B_DIV);
  cl ← cadd W128 (bf_claimed f) amount;
  Some (mkBFarm (bf_token f) (bf_start f) (bf_daily f) (bf_total f) (bf_at f) (bf_dist f) cl (bf_benef f) (bf_rps f),
        amount).
(** farmer.rs:49-56, 105-113: the claims are added to the rewards *)
Fixpoint credit (l : list (N * (BFarm * N))) (rw : gmap AccountId N) : option (gmap AccountId N) :=
  match l with
  | [] => Some rw
  | (_, (f, amount)) :: r =>
      rw' ← (if 0 <? amount then add_to_collection rw (bf_token f) amount else Some rw);
      credit r rw'
  end.
(** farmer.rs:116-121 *)
Definition new_rps (farms : gmap N BFarm) : gmap N N :=
  omap (fun f => if 0 <? bf_total f then Some (bf_rps f) else None) farms.

(** farmer.rs:72-138 internal_do_farmer_claim *)
Definition do_claim (fl : Floats) (g : BConfig) (s : SeedId) (F : BFarmer) (sd : BSeed) : option (BFarmer * BSeed) :=
  k ← (match b_stakes F !! s with
       | Some k => Some k
       | None => r ← gen_ratios fl g s F; Some (empty_stake r)
       end);
  power ← seed_power fl k;
  res ← map_all (claim_farm power (k_rps k)) (bs_farms sd);
  rw ← credit (map_to_list res) (b_rewards F);
  ratios ← gen_ratios fl g s (with_rewards F rw);
  let k' := with_ratios (with_rps k (new_rps (bs_farms sd))) ratios in
  power' ← seed_power fl k';
  t ← cadd W128 (bs_power sd) power';
  t' ← csub t power;
  Some (with_stake (with_rewards F rw) s k', with_total (with_farms sd (fst <$> res)) (bs_amount sd) t').

(** booster.rs:83-95 *)
Fixpoint update_seeds (fl : Floats) (now : N) (l : list SeedId) (c : BState) (F : BFarmer) : option (BState * BFarmer) :=
  match l with
  | [] => Some (c, F)
  | s :: r =>
      match b_stakes F !! s with
      | None => update_seeds fl now r c F
      | Some _ =>
          sd ← get_seed now c s;
          '(F', sd') ← do_claim fl (b_cfg c) s F sd;
          update_seeds fl now r (set_seed c s sd') F'
      end
  end.
Definition update_impacted (fl : Floats) (now : N) (c : BState) (F : BFarmer) (b : SeedId) : option (BState * BFarmer) :=
  match c_boosters (b_cfg c) !! b with
  | None => Some (c, F)
  | Some info => update_seeds fl now (map_to_list (snd info)).*1 c F
  end.

(** ** Calls of a farmer *)
(** claim, change the stake by [op], then update the seeds boosted by this one: the common shape of
    token_receiver.rs:101-118, 130-158, actions_of_farmer_seed.rs:31-48 and 142-162.
    [op] returns the new stake, the new total_seed_amount, the new total_seed_power and the slashed amount. *)
Definition stake_op (fl : Floats) (now : N) (c : BState) (a : AccountId) (s : SeedId) (F : BFarmer) (sd : BSeed)
    (op : BSeed -> BStake -> option (BStake * N * N * N)) : option (BState * N) :=
  '(F1, sd1) ← do_claim fl (b_cfg c) s F sd;
  k ← b_stakes F1 !! s;
  '(k', am, pw, slash) ← op sd1 k;
  '(c2, F2) ← update_impacted fl now c (with_stake F1 s k') s;
  Some (set_seed (set_farmer c2 a F2) s (with_total sd1 am pw), slash).

(** token_receiver.rs:101-128 *)
Definition stake_free_seed (fl : Floats) (now : N) (c : BState) (a : AccountId) (s : SeedId) (amount : N) : option BState :=
  F ← b_farmers c !! a; sd ← get_seed now c s;
  _ ← ensure (bs_min sd <=? amount);
  '(c', _) ← stake_op fl now c a s F sd (fun sd1 k =>
    '(k', inc) ← add_free fl k amount;
    am ← cadd W128 (bs_amount sd1) amount; pw ← cadd W128 (bs_power sd1) inc; Some (k', am, pw, 0));
  Some c'.
(** token_receiver.rs:130-168 *)
Definition stake_lock_seed (fl : Floats) (now : N) (c : BState) (a : AccountId) (s : SeedId) (amount dur : N) : option BState :=
  F ← b_farmers c !! a; sd ← get_seed now c s;
  _ ← ensure (bs_min sd <=? amount);
  _ ← ensure ((0 <? bs_minlock sd) && (bs_minlock sd <=? dur) && (dur <=? c_max_dur (b_cfg c)));
  '(c', _) ← stake_op fl now c a s F sd (fun sd1 k =>
    '(k', inc) ← add_lock fl now (b_cfg c) k amount dur;
    am ← cadd W128 (bs_amount sd1) amount; pw ← cadd W128 (bs_power sd1) inc; Some (k', am, pw, 0));
  Some c'.
(** actions_of_farmer_seed.rs:8-58 *)
Definition lock_free_seed (fl : Floats) (now : N) (c : BState) (a : AccountId) (attached : N) (s : SeedId)
    (dur : N) (amount : option N) : option BState :=
  _ ← ensure (attached =? 1); _ ← ensure (b_running c);
  F ← b_farmers c !! a; sd ← get_seed now c s;
  _ ← ensure ((0 <? bs_minlock sd) && (bs_minlock sd <=? dur) && (dur <=? c_max_dur (b_cfg c)));
  '(c', _) ← stake_op fl now c a s F sd (fun sd1 k =>
    '(k', inc) ← free_to_lock fl now (b_cfg c) k (default (k_free k) amount) dur;
    pw ← cadd W128 (bs_power sd1) inc; Some (k', bs_amount sd1, pw, 0));
  Some c'.
(** actions_of_farmer_seed.rs:128-172.  [seeds_slashed] is written before the boosted seeds are updated,
    which neither reads nor writes it. *)
Definition force_unlock (fl : Floats) (now : N) (c : BState) (a : AccountId) (attached : N) (s : SeedId)
    (amount : N) : option BState :=
  _ ← ensure (attached =? 1); _ ← ensure (b_running c);
  F ← b_farmers c !! a; sd ← get_seed now c s;
  '(c', slashed) ← stake_op fl now c a s F sd (fun sd1 k =>
    '(k', dec, slash) ← unlock_slashed fl now k amount (bs_slash sd1);
    am ← csub (bs_amount sd1) slash; pw ← csub (bs_power sd1) dec; Some (k', am, pw, slash));
  m ← add_to_collection (b_slashed c') s slashed;
  Some (set_slashed c' m).
(** actions_of_farmer_reward.rs:6-21 *)
Definition claim_reward_by_seed (fl : Floats) (now : N) (c : BState) (a : AccountId) (s : SeedId) : option BState :=
  _ ← ensure (b_running c);
  F ← b_farmers c !! a; sd ← get_seed now c s;
  '(F', sd') ← do_claim fl (b_cfg c) s F sd;
  Some (set_farmer (set_seed c s sd') a F').

(** ** Tokens received, token_receiver.rs:16-97 *)
Inductive BMsg := MFree | MLock (dur : N) | MReward (s : SeedId) (i : N).

(** actions_of_seed.rs:128-139 *)
Definition deposit_reward (now : N) (c : BState) (s : SeedId) (i : N) (token : AccountId) (amount : N) : option BState :=
  sd ← get_seed now c s; f ← bs_farms sd !! i;
  f' ← add_reward now f token amount;
  Some (set_seed c s (with_farms sd (<[i := f']> (bs_farms sd)))).
(** [asset]: the token id, or for MFT tokens (token_receiver.rs:78-80) the seed id "{contract}@{token}" *)
Definition on_transfer (fl : Floats) (now : N) (c : BState) (mft : bool) (asset sender : AccountId) (amount : N)
    (msg : BMsg) : option BState :=
  _ ← ensure (b_running c);
  match msg with
  | MFree => stake_free_seed fl now c sender asset amount
  | MLock dur => stake_lock_seed fl now c sender asset amount dur
  | MReward s i => _ ← ensure (negb mft); deposit_reward now c s i asset amount
  end.

(** ** Calls of the owner and the operators *)
(** owner.rs:23-28, lib.rs:205-211 *)
Definition is_owner (c : BState) (a : AccountId) : bool := String.eqb a (b_owner c).
Definition owner_or_op (c : BState) (a : AccountId) : bool := is_owner c a || bool_decide (a ∈ b_ops c).
Definition op_guard (c : BState) (a : AccountId) (attached : N) : option unit :=
  ensure ((attached =? 1) && owner_or_op c a && b_running c).
Definition owner_guard (c : BState) (a : AccountId) (attached : N) : option unit :=
  ensure ((attached =? 1) && is_owner c a).

(** actions_of_seed.rs:7-31 *)
Definition create_seed (c : BState) (a : AccountId) (attached : N) (s : SeedId) (dec : N) (mind minlock : option N)
  : option BState :=
  _ ← op_guard c a attached;
  match b_seeds c !! s with
  | Some _ => None
  | None => Some (set_seed c s (mkBSeed dec ∅ 0 0 0 (default B_MIN_SEED_DEPOSIT mind) (c_slash (b_cfg c))
                                       (default DEFAULT_SEED_MIN_LOCKING_DURATION_SEC minlock)))
  end.
(** actions_of_seed.rs:35-54, 93-114 *)
Definition create_farm (now : N) (c : BState) (a : AccountId) (attached : N) (s : SeedId) (token : AccountId)
    (start daily : N) : option BState :=
  _ ← op_guard c a attached;
  sd ← get_seed now c s;
  _ ← ensure (N.of_nat (size (bs_farms sd)) <? c_max_farms (b_cfg c));
  nx ← cadd W32 (bs_next sd) 1;
  n ← cadd W64 (b_farm_count c) 1;
  let c' := set_farm_count (set_seed c s (with_next (with_farms sd
              (<[bs_next sd := farm_new token start daily]> (bs_farms sd))) nx)) n in
  _ ← assert_boosters c'; Some c'.
(** actions_of_seed.rs:58-70, 116-126 *)
Definition cancel_farm (now : N) (c : BState) (a : AccountId) (attached : N) (s : SeedId) (i : N) : option BState :=
  _ ← op_guard c a attached;
  sd ← get_seed now c s; f ← bs_farms sd !! i;
  _ ← ensure (bf_total f =? 0);
  n ← csub (b_farm_count c) 1;
  Some (set_farm_count (set_seed c s (with_farms sd (delete i (bs_farms sd)))) n).
(** actions_of_seed.rs:74-88 *)
Definition remove_farm (now : N) (c : BState) (a : AccountId) (attached : N) (s : SeedId) (i : N) : option BState :=
  _ ← owner_guard c a attached; _ ← ensure (b_running c);
  sd ← get_seed now c s; f ← bs_farms sd !! i;
  f' ← finalize now f;
  n ← csub (b_farm_count c) 1;
  Some (set_farm_count (set_seed (set_outdated c (<[(s, i) := f']> (b_outdated c))) s
                                 (with_farms sd (delete i (bs_farms sd)))) n).
(** booster.rs:21-33, 12-15 *)
Definition modify_booster (now : N) (c : BState) (a : AccountId) (attached : N) (b : SeedId)
    (info : N * gmap SeedId N) : option BState :=
  _ ← op_guard c a attached;
  _ ← get_seed now c b;
  _ ← ensure (bool_decide (snd info !! b = None) && (N.of_nat (size (snd info)) <=? MAX_NUM_SEEDS_PER_BOOSTER));
  _ ← ensure (booster_ok c (snd info));
  let g := b_cfg c in
  Some (set_cfg c (mkBConfig (c_slash g) (<[b := info]> (c_boosters g)) (c_max_bfarms g) (c_max_farms g)
                             (c_max_dur g) (c_max_mult g))).
(** management.rs:7-23 *)
Definition modify_daily (now : N) (c : BState) (a : AccountId) (attached : N) (s : SeedId) (i : N) (daily : N)
  : option BState :=
  _ ← op_guard c a attached;
  sd ← get_seed now c s; f ← bs_farms sd !! i;
  Some (set_seed c s (with_farms sd (<[i := mkBFarm (bf_token f) (bf_start f) daily (bf_total f) (bf_at f) (bf_dist f)
                                              (bf_claimed f) (bf_benef f) (bf_rps f)]> (bs_farms sd)))).
(** management.rs:26-42, lib.rs:101-106 *)
Definition modify_locking_policy (c : BState) (a : AccountId) (attached : N) (dur mult : N) : option BState :=
  _ ← op_guard c a attached;
  _ ← ensure (MIN_LOCKING_REWARD_RATIO <? mult);
  let g := b_cfg c in
  Some (set_cfg c (mkBConfig (c_slash g) (c_boosters g) (c_max_bfarms g) (c_max_farms g) dur mult)).
(** management.rs:45-56 *)
Definition modify_max_farms (c : BState) (a : AccountId) (attached : N) (n : N) : option BState :=
  _ ← op_guard c a attached;
  let g := b_cfg c in
  Some (set_cfg c (mkBConfig (c_slash g) (c_boosters g) (c_max_bfarms g) n (c_max_dur g) (c_max_mult g))).
(** management.rs:59-71 *)
Definition modify_default_slash (c : BState) (a : AccountId) (attached : N) (r : N) : option BState :=
  _ ← op_guard c a attached;
  _ ← ensure (r <? BP_DENOM);
  let g := b_cfg c in
  Some (set_cfg c (mkBConfig r (c_boosters g) (c_max_bfarms g) (c_max_farms g) (c_max_dur g) (c_max_mult g))).
(** management.rs:74-85 *)
Definition modify_min_deposit (now : N) (c : BState) (a : AccountId) (attached : N) (s : SeedId) (m : N) : option BState :=
  _ ← op_guard c a attached;
  sd ← get_seed now c s;
  Some (set_seed c s (with_terms sd m (bs_slash sd) (bs_minlock sd))).
(** management.rs:88-108 *)
Definition modify_min_lock (now : N) (c : BState) (a : AccountId) (attached : N) (s : SeedId) (d : N) : option BState :=
  _ ← op_guard c a attached;
  _ ← ensure (d <=? c_max_dur (b_cfg c));
  sd ← get_seed now c s;
  Some (set_seed c s (with_terms sd (bs_min sd) (bs_slash sd) d)).
(** management.rs:111-122 *)
Definition modify_slash (now : N) (c : BState) (a : AccountId) (attached : N) (s : SeedId) (r : N) : option BState :=
  _ ← op_guard c a attached;
  sd ← get_seed now c s;
  Some (set_seed c s (with_terms sd (bs_min sd) r (bs_minlock sd))).
(** owner.rs:34-64 *)
Definition b_set_owner (c : BState) (a : AccountId) (attached : N) (o : AccountId) : option BState :=
  _ ← owner_guard c a attached; Some (set_b_owner c o).
Definition b_set_state (c : BState) (a : AccountId) (attached : N) (r : bool) : option BState :=
  _ ← owner_guard c a attached; Some (set_b_running c r).
(** owner.rs:68-85 *)
Definition extend_operators (c : BState) (a : AccountId) (attached : N) (l : list AccountId) : option BState :=
  _ ← owner_guard c a attached; Some (set_b_ops c (list_to_set l ∪ b_ops c)).
Fixpoint remove_ops (l : list AccountId) (o : gset AccountId) : option (gset AccountId) :=
  match l with
  | [] => Some o
  | x :: r => _ ← ensure (bool_decide (x ∈ o)); remove_ops r (o ∖ {[x]})
  end.
Definition remove_operators (c : BState) (a : AccountId) (attached : N) (l : list AccountId) : option BState :=
  _ ← owner_guard c a attached; o ← remove_ops l (b_ops c); Some (set_b_ops c o).

(** ** storage_impl.rs: the state and the NEAR sent *)
(** storage_impl.rs:21-53 *)
Definition b_storage_deposit (c : BState) (payer : AccountId) (attached : N) (acc : option AccountId)
  : option (BState * list (AccountId * N)) :=
  _ ← ensure (b_running c);
  let a := default payer acc in
  match b_farmers c !! a with
  | Some _ => Some (c, if 0 <? attached then [(payer, attached)] else [])
  | None =>
      refund ← csub attached STORAGE_BALANCE_MIN_BOUND;
      n ← cadd W64 (b_farmer_count c) 1;
      Some (set_farmer_count (set_farmer c a (mkBFarmer payer ∅ ∅)) n,
            if 0 <? refund then [(payer, refund)] else [])
  end.
(** storage_impl.rs:57-61: always panics *)
Definition b_storage_withdraw (c : BState) (a : AccountId) (attached : N) : option (BState * list (AccountId * N)) := None.
(** storage_impl.rs:65-91 *)
Definition b_storage_unregister (c : BState) (a : AccountId) (attached : N)
  : option (BState * list (AccountId * N)) :=
  _ ← ensure ((attached =? 1) && b_running c);
  match b_farmers c !! a with
  | None => Some (c, [])
  | Some F =>
      _ ← ensure (bool_decide (b_rewards F = ∅) && bool_decide (b_stakes F = ∅));
      n ← csub (b_farmer_count c) 1;
      Some (set_farmer_count (set_farmers c (delete a (b_farmers c))) n,
            [(b_sponsor F, STORAGE_BALANCE_MIN_BOUND)])
  end.

Global Opaque B_DIV NANOS_PER_DAY STORAGE_BALANCE_MIN_BOUND B_MIN_SEED_DEPOSIT.
