(** * Words for when a quoted trade executes *)
From Verif Require Import Base SimplePool SpecSimple StableMath StablePool SpecStable Rates Echo Twap SpecTwap PropTwap.
From Verif Require Import Account Pool Exchange SpecExchange SpecWorld WorldProofs SpecHistory TwapInv SpecRecords PropRecords SpecSettings SpecExit.

(** Every pool that has volume counters has one pair for each of its tokens. *)
Definition counters_sized (c : Exchange) : Prop :=
  forall pid v p, ex_volumes c !! pid = Some v -> ex_pool c pid = Some p -> length v = length (pl_tokens p).
(** The volume counters of pool [pid] can take another trade: [2^256] is far away. *)
Definition counters_room (c : Exchange) (pid : N) : Prop :=
  forall v, ex_volumes c !! pid = Some v -> Forall (fun x => fst x + 2 ^ 128 <= 2 ^ 256 /\ snd x + 2 ^ 128 <= 2 ^ 256) v.
(** What is true of a new exchange and kept for ever: sound average records and volume counters, referral fees below 100 per cent. *)
Definition sound_start (w : World) : Prop :=
  records_sound w /\ counters_sized (w_ex w) /\ referrals_bounded (ex_cfg (w_ex w)).
(** Pool [pid] can be traded with as far as its bookkeeping is concerned: no more than [2^32] pools, counters far from overflow,
    and if the pool has an average record, one share can be redeemed for it. *)
Definition can_trade (w : World) (pid : N) (p : Pool) : Prop :=
  ex_pool (w_ex w) pid = Some p /\ N.of_nat (length (ex_pools (w_ex w))) <= 2 ^ 32 /\ counters_room (w_ex w) pid /\
  (is_Some (ex_twap (w_ex w) !! pid) -> one_share p < pl_supply p -> leaves_enough p (one_share p)).
