(** * Model of the ref-farming contract (crate ref-farming, paths below are relative to ref-farming/src)

    Simplifications (also listed in DESIGN.md):
    - a FarmId, in the code the string "{seed_id}#{index}" (utils.rs:85-95), is the pair
      (seed_id, index).  [parse_farm_id] is then the first projection.  Other strings panic in the code
      or are read as a seed and an index but find no farm (FarmIds.v, C104).
    - [FarmSeed.seed_type] is omitted: it only selects ft_transfer or mft_transfer, and the two
      withdrawal callbacks (actions_of_seed.rs:73-120 and 122-169) are the same code up to that field.
      Seed tokens are identified by the seed id for both kinds.
    - The versioned wrappers (farmer.rs:118-183, farm_seed.rs:74-122, lib.rs:87-137) have one
      version in use and are dropped; legacy.rs and [migrate] are not modelled.
    - [user_rps] is a LookupMap whose storage prefix has the account id (farmer.rs:134, Keys.v): its entries
      live in contract storage independently of the Farmer record.  It is modelled as the contract
      level map [fs_rps], which is what makes it survive [storage_unregister]. *)
From Verif Require Import Base.

Notation SeedId := string (only parsing).
Notation FarmId := (string * N)%type (only parsing).

(** simple_farm.rs:29 *)
Definition DENOM : N := 10 ^ 24.
(** env::storage_byte_cost() of the NEAR protocol *)
Definition BYTE_COST : N := 10 ^ 19.
(** utils.rs:10-11, farmer.rs:19 *)
Definition MIN_SEED_DEPOSIT : N := 10 ^ 18.
Definition MAX_ACCOUNT_LENGTH : N := 64.
Definition MIN_FARMER_LENGTH : N := MAX_ACCOUNT_LENGTH + 16 + 4 * 3.

(** utils.rs:97-99 to_nano (u32 * 10^9 always fits in a u64) *)
Definition to_nano (sec : N) : N := sec * 10 ^ 9.
(** utils.rs:101-103 to_sec: [(timestamp / 10^9) as u32], the cast truncates *)
Definition to_sec (ts : N) : N := (ts / 10 ^ 9) mod W32.

(** ** simple_farm.rs *)

(** simple_farm.rs:38-44 SimpleFarmTerms *)
Record Terms := mkTerms {
  t_seed : SeedId;
  t_reward : AccountId;      (* reward_token *)
  t_start : N;               (* start_at : u32 *)
  t_rps : N;                 (* reward_per_session *)
  t_interval : N;            (* session_interval : u32 *)
}.
(** simple_farm.rs:70-72 *)
Inductive FStatus := Created | Running | Ended | Cleared.
Global Instance FStatus_eq_dec : EqDecision FStatus. Proof. solve_decision. Defined.

(** simple_farm.rs:85-98 SimpleFarmRewardDistribution *)
Record Dist := mkDist {
  d_undist : N; d_unclaimed : N;
  d_rps : N;  (* RPS, a little endian U256 *)
  d_rr : N;
}.
(** simple_farm.rs:103-120 SimpleFarm.  [farm_id] is the key under which it is stored. *)
Record Farm := mkFarm {
  f_terms : Terms; f_status : FStatus; f_dist : Dist;
  f_reward : N;    (* amount_of_reward *)
  f_claimed : N;   (* amount_of_claimed *)
  f_benef : N;     (* amount_of_beneficiary *)
}.

Definition f_set_status f x := mkFarm (f_terms f) x (f_dist f) (f_reward f) (f_claimed f) (f_benef f).
Definition f_set_dist f x := mkFarm (f_terms f) (f_status f) x (f_reward f) (f_claimed f) (f_benef f).
Definition f_set_terms f x := mkFarm x (f_status f) (f_dist f) (f_reward f) (f_claimed f) (f_benef f).
Definition f_set_reward f x := mkFarm (f_terms f) (f_status f) (f_dist f) x (f_claimed f) (f_benef f).
Definition f_set_claimed f x := mkFarm (f_terms f) (f_status f) (f_dist f) (f_reward f) x (f_benef f).
Definition f_set_benef f x := mkFarm (f_terms f) (f_status f) (f_dist f) (f_reward f) (f_claimed f) x.
Definition d_set_undist d x := mkDist x (d_unclaimed d) (d_rps d) (d_rr d).
Definition d_set_unclaimed d x := mkDist (d_undist d) x (d_rps d) (d_rr d).
Definition t_set_start t x := mkTerms (t_seed t) (t_reward t) x (t_rps t) (t_interval t).

(** simple_farm.rs:123-136 new *)
Definition farm_new (t : Terms) : Farm := mkFarm t Created (mkDist 0 0 0 0) 0 0 0.

(** simple_farm.rs:190-204: the reward released since the last distribution and the new round.
    [increased_rr as u32] cannot truncate as [increased_rr < dis.rr - last.rr]; modelled with
    the truncation all the same. *)
Definition reward_round (f : Farm) (rr0 : N) : option (N * N) :=
  let d := f_dist f in
  diff ← csub rr0 (d_rr d);
  added0 ← cmul W128 diff (t_rps (f_terms f));
  if d_undist d <? added0 then
    let added := d_undist d in
    q ← cdiv added (t_rps (f_terms f));
    let inc := q mod W32 in
    rr ← cadd W32 (d_rr d) inc;
    calc ← cmul W128 inc (t_rps (f_terms f));
    rr' ← (if calc <? added then cadd W32 rr 1 else Some rr);
    Some (added, rr')
  else Some (added0, rr0).

(** simple_farm.rs:178-229 try_distribute.  The outer option is the panic, the inner one the result. *)
Definition try_distribute (now : N) (f : Farm) (total_seeds : N) : option (option Dist) :=
  match f_status f with
  | Running =>
      if now <? to_nano (t_start (f_terms f)) then Some None else
      el ← csub (to_sec now) (t_start (f_terms f));
      rr0 ← cdiv el (t_interval (f_terms f));
      '(added, rr) ← reward_round f rr0;
      let d := f_dist f in
      unclaimed ← cadd W128 (d_unclaimed d) added;
      undist ← csub (d_undist d) added;
      rps ← (if total_seeds =? 0 then Some 0 else
               x ← cmul W256 added DENOM;
               q ← cdiv x total_seeds;
               cadd W256 (d_rps d) q);
      Some (Some (mkDist undist unclaimed rps rr))
  | _ => Some None
  end.

(** simple_farm.rs:140-171 add_reward *)
Definition farm_add_reward (now : N) (f : Farm) (amount : N) : option (option Farm) :=
  let credit f :=
    r ← cadd W128 (f_reward f) amount;
    u ← cadd W128 (d_undist (f_dist f)) amount;
    Some (f_set_dist (f_set_reward f r) (d_set_undist (f_dist f) u)) in
  match f_status f with
  | Created =>
      let f1 := f_set_status f Running in
      let f2 := if t_start (f_terms f) =? 0
                then f_set_terms f1 (t_set_start (f_terms f) (to_sec now)) else f1 in
      f3 ← credit f2; Some (Some f3)
  | Running =>
      od ← try_distribute now f DENOM;
      if (match od with Some dis => d_undist dis =? 0 | None => false end) then Some None
      else f3 ← credit f; Some (Some f3)
  | _ => Some None
  end.

(** simple_farm.rs:233-254 view_farmer_unclaimed_reward *)
Definition reward_of (user_seeds rps user_rps : N) : option N :=
  d ← csub rps user_rps;
  x ← cmul W256 user_seeds d;
  q ← cdiv x DENOM;
  fit W128 q.
Definition view_farmer_unclaimed_reward (now : N) (f : Farm) (user_rps user_seeds total_seeds : N)
  : option N :=
  if total_seeds =? 0 then Some 0 else
  if user_seeds =? 0 then Some 0 else
  od ← try_distribute now f total_seeds;
  match od with
  | Some dis => reward_of user_seeds (d_rps dis) user_rps
  | None => reward_of user_seeds (d_rps (f_dist f)) user_rps
  end.

(** simple_farm.rs:260-285 distribute (without the log) *)
Definition distribute (now : N) (f : Farm) (total_seeds : N) : option Farm :=
  od ← try_distribute now f total_seeds;
  match od with
  | None => Some f
  | Some dis =>
      f1 ← (if d_rr (f_dist f) =? d_rr dis then Some f else
              if total_seeds =? 0 then
                c ← cadd W128 (f_claimed f) (d_unclaimed dis);
                b ← cadd W128 (f_benef f) (d_unclaimed dis);
                Some (f_set_benef (f_set_claimed (f_set_dist f (d_set_unclaimed dis 0)) c) b)
              else Some (f_set_dist f dis));
      Some (if d_undist (f_dist f1) =? 0 then f_set_status f1 Ended else f1)
  end.

(** simple_farm.rs:290-320 claim_user_reward: the new farm, the new user_rps, the amount *)
Definition claim_user_reward (now : N) (f : Farm) (user_rps user_seeds total_seeds : N)
  : option (Farm * N * N) :=
  f1 ← distribute now f total_seeds;
  claimed ← reward_of user_seeds (d_rps (f_dist f1)) user_rps;
  f2 ← (if 0 <? claimed then
          u ← csub (d_unclaimed (f_dist f1)) claimed;
          c ← cadd W128 (f_claimed f1) claimed;
          Some (f_set_claimed (f_set_dist f1 (d_set_unclaimed (f_dist f1) u)) c)
        else Some f1);
  Some (f2, d_rps (f_dist f2), claimed).

(** simple_farm.rs:323-338 move_to_clear (the returned flag is ignored by the only caller) *)
Definition move_to_clear (now : N) (f : Farm) (total_seeds : N) : option Farm :=
  f1 ← (match f_status f with Running => distribute now f total_seeds | _ => Some f end);
  match f_status f1 with
  | Ended =>
      f2 ← (if 0 <? d_unclaimed (f_dist f1) then
              c ← cadd W128 (f_claimed f1) (d_unclaimed (f_dist f1));
              b ← cadd W128 (f_benef f1) (d_unclaimed (f_dist f1));
              Some (f_set_benef (f_set_claimed (f_set_dist f1 (d_set_unclaimed (f_dist f1) 0)) c) b)
            else Some f1);
      Some (f_set_status f2 Cleared)
  | _ => Some f1
  end.

(** simple_farm.rs:340-356 can_be_removed *)
Definition can_be_removed (now : N) (f : Farm) (total_seeds : N) : option bool :=
  match f_status f with
  | Ended => Some true
  | Running =>
      od ← try_distribute now f total_seeds;
      Some (match od with Some dis => d_undist dis =? 0 | None => false end)
  | _ => Some false
  end.

(** ** farm_seed.rs, farmer.rs, lib.rs *)

(** farm_seed.rs:25-38 FarmSeed *)
Record Seed := mkSeed {
  s_farms : gset FarmId; s_next : N; s_amount : N; s_min : N;
}.
Definition s_set_amount s x := mkSeed (s_farms s) (s_next s) x (s_min s).
Definition s_set_farms s x := mkSeed x (s_next s) (s_amount s) (s_min s).

(** farmer.rs:24-35 Farmer; [user_rps] is [fs_rps] below *)
Record Farmer := mkFarmer {
  fr_amount : N;                       (* NEAR paid for storage *)
  fr_rewards : gmap AccountId N;
  fr_seeds : gmap SeedId N;
  fr_count : N;                        (* rps_count : u32 *)
}.
Definition fr_set_amount r x := mkFarmer x (fr_rewards r) (fr_seeds r) (fr_count r).
Definition fr_set_rewards r x := mkFarmer (fr_amount r) x (fr_seeds r) (fr_count r).
Definition fr_set_seeds r x := mkFarmer (fr_amount r) (fr_rewards r) x (fr_count r).
Definition fr_set_count r x := mkFarmer (fr_amount r) (fr_rewards r) (fr_seeds r) x.

(** lib.rs:63-85 ContractData *)
Record FState := mkFState {
  fs_owner : AccountId;
  fs_seeds : gmap SeedId Seed;
  fs_farmers : gmap AccountId Farmer;
  fs_rps : gmap (AccountId * FarmId) N;
  fs_farms : gmap FarmId Farm;
  fs_outdated : gmap FarmId Farm;
  fs_count : N;                        (* farmer_count : u64 *)
  fs_info : gmap AccountId N;          (* reward_info *)
  fs_running : bool;                   (* state == Running *)
}.
Definition fs_set_owner c x := mkFState x (fs_seeds c) (fs_farmers c) (fs_rps c) (fs_farms c) (fs_outdated c) (fs_count c) (fs_info c) (fs_running c).
Definition fs_set_seeds c x := mkFState (fs_owner c) x (fs_farmers c) (fs_rps c) (fs_farms c) (fs_outdated c) (fs_count c) (fs_info c) (fs_running c).
Definition fs_set_farmers c x := mkFState (fs_owner c) (fs_seeds c) x (fs_rps c) (fs_farms c) (fs_outdated c) (fs_count c) (fs_info c) (fs_running c).
Definition fs_set_rps c x := mkFState (fs_owner c) (fs_seeds c) (fs_farmers c) x (fs_farms c) (fs_outdated c) (fs_count c) (fs_info c) (fs_running c).
Definition fs_set_farms c x := mkFState (fs_owner c) (fs_seeds c) (fs_farmers c) (fs_rps c) x (fs_outdated c) (fs_count c) (fs_info c) (fs_running c).
Definition fs_set_outdated c x := mkFState (fs_owner c) (fs_seeds c) (fs_farmers c) (fs_rps c) (fs_farms c) x (fs_count c) (fs_info c) (fs_running c).
Definition fs_set_count c x := mkFState (fs_owner c) (fs_seeds c) (fs_farmers c) (fs_rps c) (fs_farms c) (fs_outdated c) x (fs_info c) (fs_running c).
Definition fs_set_info c x := mkFState (fs_owner c) (fs_seeds c) (fs_farmers c) (fs_rps c) (fs_farms c) (fs_outdated c) (fs_count c) x (fs_running c).
Definition fs_set_running c x := mkFState (fs_owner c) (fs_seeds c) (fs_farmers c) (fs_rps c) (fs_farms c) (fs_outdated c) (fs_count c) (fs_info c) x.

(** lib.rs:106-120 new *)
Definition fs_new (owner : AccountId) : FState := mkFState owner ∅ ∅ ∅ ∅ ∅ 0 ∅ true.

(** farmer.rs:129-139 VersionedFarmer::new *)
Definition farmer_new (amount : N) : Farmer := mkFarmer amount ∅ ∅ 0.

(** map lookup with default 0 ([unwrap_or(0)]) *)
Definition mget `{Countable K} (m : gmap K N) (k : K) : N := default 0 (m !! k).

(** farmer.rs:40-46 add_reward *)
Definition fr_add_reward (r : Farmer) (token : AccountId) (amount : N) : option Farmer :=
  v ← cadd W128 (mget (fr_rewards r) token) amount;
  Some (fr_set_rewards r (<[token := v]> (fr_rewards r))).

(** farmer.rs:52-62 sub_reward: the new farmer and the amount actually subtracted *)
Definition fr_sub_reward (r : Farmer) (token : AccountId) (amount : N) : option (Farmer * N) :=
  value ← fr_rewards r !! token;
  _ ← ensure (amount <=? value);
  if amount =? 0 then Some (fr_set_rewards r (delete token (fr_rewards r)), value)
  else Some (fr_set_rewards r (<[token := value - amount]> (fr_rewards r)), amount).

(** farmer.rs:64-72 add_seed *)
Definition fr_add_seed (r : Farmer) (s : SeedId) (amount : N) : option Farmer :=
  if 0 <? amount then
    v ← cadd W128 amount (mget (fr_seeds r) s);
    Some (fr_set_seeds r (<[s := v]> (fr_seeds r)))
  else Some r.

(** farmer.rs:75-85 sub_seed: the new farmer and the remaining balance *)
Definition fr_sub_seed (r : Farmer) (s : SeedId) (amount : N) : option (Farmer * N) :=
  prev ← fr_seeds r !! s;
  _ ← ensure (amount <=? prev);
  let cur := prev - amount in
  Some (fr_set_seeds r (if 0 <? cur then <[s := cur]> (fr_seeds r) else delete s (fr_seeds r)), cur).

(** farmer.rs:106-114 storage_usage (the sums and products are far below 2^128) *)
Definition fr_storage_usage (r : Farmer) : N :=
  (MIN_FARMER_LENGTH
   + N.of_nat (size (fr_rewards r)) * (4 + MAX_ACCOUNT_LENGTH + 16)
   + N.of_nat (size (fr_seeds r)) * (4 + MAX_ACCOUNT_LENGTH + 16)
   + fr_count r * (4 + 1 + 2 * MAX_ACCOUNT_LENGTH + 32)) * BYTE_COST.

(** farmer.rs:87-89 get_rps *)
Definition get_rps (c : FState) (a : AccountId) (fid : FarmId) : N := mget (fs_rps c) (a, fid).

(** farmer.rs:91-96 set_rps, on the stored farmer [a] *)
Definition set_rps (c : FState) (a : AccountId) (fid : FarmId) (rps : N) : option FState :=
  r ← fs_farmers c !! a;
  n ← (match fs_rps c !! (a, fid) with Some _ => Some (fr_count r) | None => cadd W32 (fr_count r) 1 end);
  Some (fs_set_rps (fs_set_farmers c (<[a := fr_set_count r n]> (fs_farmers c)))
                   (<[(a, fid) := rps]> (fs_rps c))).

(** farmer.rs:98-103 remove_rps, on the stored farmer [a] *)
Definition remove_rps (c : FState) (a : AccountId) (fid : FarmId) : option FState :=
  r ← fs_farmers c !! a;
  match fs_rps c !! (a, fid) with
  | None => Some c
  | Some _ =>
      n ← csub (fr_count r) 1;
      Some (fs_set_rps (fs_set_farmers c (<[a := fr_set_count r n]> (fs_farmers c)))
                       (delete (a, fid) (fs_rps c)))
  end.

(** ** actions_of_reward.rs *)

(** actions_of_reward.rs:130-162 claim_user_reward_from_farm together with the write-back of the
    farm (line 181 resp. 205) and of the farmer (184 resp. 206).  [farm] is the stored farm [fid]. *)
Definition claim_from_farm (now : N) (c : FState) (a : AccountId) (total_seeds : N) (fid : FarmId)
  : option FState :=
  r ← fs_farmers c !! a;
  f ← fs_farms c !! fid;
  let user_seeds := mget (fr_seeds r) (t_seed (f_terms f)) in
  '(f', rps', amount) ← claim_user_reward now f (get_rps c a fid) user_seeds total_seeds;
  c1 ← set_rps (fs_set_farms c (<[fid := f']> (fs_farms c))) a fid rps';
  if 0 <? amount then
    r1 ← fs_farmers c1 !! a;
    r2 ← fr_add_reward r1 (t_reward (f_terms f)) amount;
    Some (fs_set_farmers c1 (<[a := r2]> (fs_farmers c1)))
  else Some c1.

Fixpoint claim_from_farms (now : N) (c : FState) (a : AccountId) (total_seeds : N) (l : list FarmId)
  : option FState :=
  match l with
  | [] => Some c
  | fid :: l' => c' ← claim_from_farm now c a total_seeds fid; claim_from_farms now c' a total_seeds l'
  end.

(** actions_of_reward.rs:166-186 internal_claim_user_reward_by_seed_id.  The code keeps the farmer in
    a local variable during the loop and stores it at the end, here it is stored after every
    iteration; nothing else reads it in between. *)
Definition claim_by_seed (now : N) (c : FState) (a : AccountId) (s : SeedId) : option FState :=
  _ ← fs_farmers c !! a;
  match fs_seeds c !! s with
  | Some sd => claim_from_farms now c a (s_amount sd) (elements (s_farms sd))
  | None => Some c
  end.

(** actions_of_reward.rs:188-209 internal_claim_user_reward_by_farm_id *)
Definition claim_by_farm (now : N) (c : FState) (a : AccountId) (fid : FarmId) : option FState :=
  _ ← fs_farmers c !! a;
  match fs_seeds c !! fst fid, fs_farms c !! fid with
  | Some sd, Some _ => claim_from_farm now c a (s_amount sd) fid
  | _, _ => Some c
  end.

(** ** storage_impl.rs *)

(** storage_impl.rs:139-149 internal_farmer_storage (locked, deposited) *)
Definition farmer_storage (c : FState) (a : AccountId) : N * N :=
  match fs_farmers c !! a with Some r => (fr_storage_usage r, fr_amount r) | None => (0, 0) end.

(** storage_impl.rs:151-163 assert_storage_usage *)
Definition assert_storage_usage (c : FState) (a : AccountId) : option unit :=
  let '(locked, deposited) := farmer_storage c a in
  ensure ((0 <? deposited) && (locked <=? deposited)).

(** storage_impl.rs:167-173 suggested_min_storage_usage *)
Definition min_storage_usage : N :=
  (MIN_FARMER_LENGTH + 2 * 5 * (MAX_ACCOUNT_LENGTH + 16) + 10 * (MAX_ACCOUNT_LENGTH + 32)) * BYTE_COST.

(** storage_impl.rs:176-185 internal_register_account *)
Definition register_account (c : FState) (a : AccountId) (amount : N) : option FState :=
  match fs_farmers c !! a with
  | Some r =>
      v ← cadd W128 (fr_amount r) amount;
      Some (fs_set_farmers c (<[a := fr_set_amount r v]> (fs_farmers c)))
  | None =>
      n ← cadd W64 (fs_count c) 1;
      Some (fs_set_count (fs_set_farmers c (<[a := farmer_new amount]> (fs_farmers c))) n)
  end.

(** storage_impl.rs:20-59 storage_deposit (the NEAR refund is not modelled) *)
Definition storage_deposit (c : FState) (a : AccountId) (attached : N) (registration_only : bool)
  : option FState :=
  _ ← ensure (fs_running c);
  let '(locked, deposited) := farmer_storage c a in
  if deposited =? 0 then
    _ ← ensure (min_storage_usage <=? attached);
    register_account c a (if registration_only then min_storage_usage else attached)
  else
    _ ← ensure (negb registration_only);
    t ← cadd W128 attached deposited;
    _ ← ensure (locked <=? t);
    register_account c a attached.

(** storage_impl.rs:62-83 storage_withdraw.  Result: the new state and the NEAR sent to the caller. *)
Definition storage_withdraw (c : FState) (caller : AccountId) (attached : N) (amount : option N)
  : option (FState * N) :=
  _ ← ensure (attached =? 1);
  _ ← ensure (fs_running c);
  let '(locked, deposited) := farmer_storage c caller in
  _ ← ensure (0 <? deposited);
  _ ← ensure (locked <=? deposited);
  let am := default (deposited - locked) amount in
  t ← cadd W128 locked am;
  _ ← ensure (t <=? deposited);
  r ← fs_farmers c !! caller;
  v ← csub (fr_amount r) am;
  Some (fs_set_farmers c (<[caller := fr_set_amount r v]> (fs_farmers c)), am).

(** storage_impl.rs:87-113 storage_unregister.  Note that the [user_rps] entries stay in storage. *)
Definition storage_unregister (c : FState) (caller : AccountId) (attached : N) : option (FState * N) :=
  _ ← ensure (attached =? 1);
  _ ← ensure (fs_running c);
  match fs_farmers c !! caller with
  | Some r =>
      _ ← ensure (bool_decide (fr_rewards r = ∅));
      _ ← ensure (bool_decide (fr_seeds r = ∅));
      n ← csub (fs_count c) 1;
      Some (fs_set_count (fs_set_farmers c (delete caller (fs_farmers c))) n, fr_amount r)
  | None => Some (c, 0)
  end.

(** ** actions_of_seed.rs *)

(** actions_of_seed.rs:199-219 internal_seed_deposit; the failure branch of the two withdrawal
    callbacks (98-106, 147-155) executes the same updates. *)
Definition seed_deposit (now : N) (c : FState) (s : SeedId) (a : AccountId) (amount : N)
  : option FState :=
  c1 ← claim_by_seed now c a s;
  sd ← fs_seeds c1 !! s;
  v ← cadd W128 (s_amount sd) amount;
  let c2 := fs_set_seeds c1 (<[s := s_set_amount sd v]> (fs_seeds c1)) in
  r ← fs_farmers c2 !! a;
  r' ← fr_add_seed r s amount;
  Some (fs_set_farmers c2 (<[a := r']> (fs_farmers c2))).

(** actions_of_seed.rs:240-242 *)
Fixpoint remove_rps_all (c : FState) (a : AccountId) (l : list FarmId) : option FState :=
  match l with
  | [] => Some c
  | fid :: l' => c' ← remove_rps c a fid; remove_rps_all c' a l'
  end.

(** actions_of_seed.rs:221-247 internal_seed_withdraw *)
Definition seed_withdraw (now : N) (c : FState) (s : SeedId) (a : AccountId) (amount : N)
  : option FState :=
  c1 ← claim_by_seed now c a s;
  sd ← fs_seeds c1 !! s;
  r ← fs_farmers c1 !! a;
  '(r', remain) ← fr_sub_seed r s amount;
  total ← csub (s_amount sd) amount;
  let c2 := fs_set_seeds (fs_set_farmers c1 (<[a := r']> (fs_farmers c1)))
                         (<[s := s_set_amount sd total]> (fs_seeds c1)) in
  if remain =? 0 then remove_rps_all c2 a (elements (s_farms sd)) else Some c2.

(** actions_of_seed.rs:18-71 withdraw_seed, up to the creation of the promise *)
Definition withdraw_seed (now : N) (c : FState) (caller : AccountId) (attached : N) (s : SeedId)
    (amount : N) : option FState :=
  _ ← ensure (attached =? 1);
  _ ← ensure (fs_running c);
  seed_withdraw now c s caller amount.

(** actions_of_reward.rs:55-85 withdraw_reward, up to the creation of the promise: the amount sent *)
Definition withdraw_reward (c : FState) (caller : AccountId) (attached : N) (token : AccountId)
    (amount : option N) : option (FState * N) :=
  _ ← ensure (attached =? 1);
  _ ← ensure (fs_running c);
  r ← fs_farmers c !! caller;
  '(r', am) ← fr_sub_reward r token (default 0 amount);
  Some (fs_set_farmers c (<[caller := r']> (fs_farmers c)), am).

(** actions_of_reward.rs:112-125: the failure branch of callback_post_withdraw_reward *)
Definition restore_reward (c : FState) (a : AccountId) (token : AccountId) (amount : N)
  : option FState :=
  r ← fs_farmers c !! a;
  r' ← fr_add_reward r token amount;
  Some (fs_set_farmers c (<[a := r']> (fs_farmers c))).

(** actions_of_reward.rs:37-43 *)
Definition claim_reward_by_farm (now : N) (c : FState) (caller : AccountId) (fid : FarmId)
  : option FState :=
  _ ← ensure (fs_running c);
  c' ← claim_by_farm now c caller fid;
  _ ← assert_storage_usage c' caller;
  Some c'.

(** actions_of_reward.rs:45-51 *)
Definition claim_reward_by_seed (now : N) (c : FState) (caller : AccountId) (s : SeedId)
  : option FState :=
  _ ← ensure (fs_running c);
  c' ← claim_by_seed now c caller s;
  _ ← assert_storage_usage c' caller;
  Some c'.

(** actions_of_reward.rs:21-35 *)
Definition remove_user_rps_by_farm (c : FState) (caller : AccountId) (fid : FarmId) : option FState :=
  _ ← ensure (fs_running c);
  _ ← fs_farmers c !! caller;
  sd ← fs_seeds c !! fst fid;
  if bool_decide (fid ∈ s_farms sd) then Some c else remove_rps c caller fid.

(** ** token_receiver.rs *)

(** token_receiver.rs:16-85 ft_on_transfer, [msg] is the parsed message: None for the empty string.
    mft_on_transfer (128-177) runs the seed branch for the seed id built from the predecessor and
    the pool id, it is [ft_on_transfer] with [msg = None] here. *)
Definition ft_on_transfer (now : N) (c : FState) (token sender : AccountId) (amount : N)
    (msg : option FarmId) : option FState :=
  _ ← ensure (fs_running c);
  match msg with
  | None =>
      sd ← fs_seeds c !! token;
      _ ← ensure (s_min sd <=? amount);
      c' ← seed_deposit now c token sender amount;
      _ ← assert_storage_usage c' sender;
      Some c'
  | Some fid =>
      f ← fs_farms c !! fid;
      _ ← ensure (String.eqb (t_reward (f_terms f)) token);
      of ← farm_add_reward now f amount;
      f' ← of;
      i ← cadd W128 (mget (fs_info c) token) amount;
      Some (fs_set_info (fs_set_farms c (<[fid := f']> (fs_farms c))) (<[token := i]> (fs_info c)))
  end.

(** ** actions_of_farm.rs, owner.rs *)

(** owner.rs:66-72 assert_owner *)
Definition assert_owner (c : FState) (caller : AccountId) : option unit :=
  ensure (String.eqb caller (fs_owner c)).

(** actions_of_farm.rs:45-81 internal_add_farm *)
Definition internal_add_farm (c : FState) (t : Terms) (min_deposit : N) : option FState :=
  let sd := default (mkSeed ∅ 0 0 min_deposit) (fs_seeds c !! t_seed t) in
  let fid := (t_seed t, s_next sd) in
  n ← cadd W32 (s_next sd) 1;
  Some (fs_set_farms
          (fs_set_seeds c (<[t_seed t := mkSeed (s_farms sd ∪ {[fid]}) n (s_amount sd) (s_min sd)]> (fs_seeds c)))
          (<[fid := farm_new t]> (fs_farms c))).

(** actions_of_farm.rs:14-38 create_simple_farm; [storage_needed] is what the runtime measures *)
Definition create_simple_farm (c : FState) (caller : AccountId) (attached storage_needed : N)
    (t : Terms) (min_deposit : option N) : option FState :=
  _ ← assert_owner c caller;
  c' ← internal_add_farm c t (default MIN_SEED_DEPOSIT min_deposit);
  _ ← ensure (storage_needed * BYTE_COST <=? attached);
  Some c'.

(** actions_of_farm.rs:83-103 internal_remove_farm_by_farm_id *)
Definition internal_remove_farm (now : N) (c : FState) (fid : FarmId) : option (FState * bool) :=
  match fs_seeds c !! fst fid, fs_farms c !! fid with
  | Some sd, Some f =>
      b ← can_be_removed now f (s_amount sd);
      if (b : bool) then
        f' ← move_to_clear now f (s_amount sd);
        Some (fs_set_seeds
                (fs_set_outdated (fs_set_farms c (delete fid (fs_farms c)))
                                 (<[fid := f']> (fs_outdated c)))
                (<[fst fid := s_set_farms sd (s_farms sd ∖ {[fid]})]> (fs_seeds c)), true)
      else Some (c, false)
  | _, _ => Some (c, false)
  end.

(** owner.rs:13-16 *)
Definition force_clean_farm (now : N) (c : FState) (caller : AccountId) (fid : FarmId)
  : option FState :=
  _ ← assert_owner c caller;
  '(c', _cleaned) ← internal_remove_farm now c fid;
  Some c'.

(** owner.rs:18-23 *)
Definition modify_seed_min_deposit (c : FState) (caller : AccountId) (s : SeedId) (m : N)
  : option FState :=
  _ ← assert_owner c caller;
  sd ← fs_seeds c !! s;
  Some (fs_set_seeds c (<[s := mkSeed (s_farms sd) (s_next sd) (s_amount sd) m]> (fs_seeds c))).

(** owner.rs:7-10 *)
Definition set_owner (c : FState) (caller new_owner : AccountId) : option FState :=
  _ ← assert_owner c caller;
  Some (fs_set_owner c new_owner).

(** owner.rs:25-49 pause_contract / resume_contract *)
Definition set_running (c : FState) (caller : AccountId) (attached : N) (b : bool) : option FState :=
  _ ← ensure (attached =? 1);
  _ ← assert_owner c caller;
  Some (fs_set_running c b).

(** ** view.rs:220-240 get_unclaimed_reward *)
Definition get_unclaimed_reward (now : N) (c : FState) (a : AccountId) (fid : FarmId) : option N :=
  match fs_farmers c !! a, fs_seeds c !! fst fid, fs_farms c !! fid with
  | Some r, Some sd, Some f =>
      view_farmer_unclaimed_reward now f (get_rps c a fid) (mget (fr_seeds r) (fst fid)) (s_amount sd)
  | _, _, _ => Some 0
  end.
