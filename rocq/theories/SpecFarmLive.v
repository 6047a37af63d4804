(** * Vocabulary for the success of claims, stakes and withdrawals of the farming contract *)
From Verif Require Import Base BaseLemmas Farming SpecFarming.

(** Times a [u32] of seconds can express (until the year 2106). *)
Definition in_time (w : FWorld) (now : N) : Prop := w_now w <= now /\ now < W32 * 10 ^ 9.

(** Terms without surprises: sessions take time, and a [u128] has room for the rewards of 2^32 sessions. *)
Definition sane (t : Terms) : Prop := 0 < t_interval t /\ t_rps t < 2 ^ 96.
Definition sane_farms (c : FState) (s : SeedId) : Prop :=
  forall fid f, fs_farms c !! fid = Some f -> fst fid = s -> sane (f_terms f).

(** Balances of reward tokens fit in a [u128]. *)
Definition sane_tokens (w : FWorld) (s : SeedId) : Prop :=
  forall fid f, fs_farms (w_c w) !! fid = Some f -> fst fid = s -> mget (w_hold w) (t_reward (f_terms f)) < W128.

(** How many farms of a seed are running or waiting. *)
Definition farms_of (c : FState) (s : SeedId) : N :=
  match fs_seeds c !! s with Some sd => N.of_nat (size (s_farms sd)) | None => 0 end.

(** The number of farms for which the contract keeps a record of the farmer. *)
Definition records (c : FState) (a : AccountId) : N :=
  msum (fun k _ => if String.eqb (fst k) a then 1 else 0) (fs_rps c).

(** The farmer did not unregister during these events. *)
Definition stayed (a : AccountId) (es : list fevent) : Prop :=
  forall e, e ∈ es -> match e with EvCall _ b (CStorageUnregister _) => b <> a | _ => True end.

(** The farmer has no record of any farm of the seed, or stakes in it. *)
Definition ready (c : FState) (a : AccountId) (s : SeedId) : Prop :=
  0 < stake_of c a s \/ forall fid, fst fid = s -> fs_rps c !! (a, fid) = None.
