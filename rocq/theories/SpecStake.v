(** * Pool shares staked in ref-farming: the exchange and the farm as one system

    A farmer sends shares by mft_transfer_call to the farm, the exchange notifies it (mft_on_transfer), the farm accepts or
    refuses, the exchange takes back what was refused (mft_resolve_transfer).  A withdrawal is an mft_transfer by the farm.
    All of these are separate receipts, anything else may happen in between. *)
From stdpp Require Import pretty.
From Verif Require Import Base BaseLemmas Farming Account Pool Exchange SpecExchange SpecWorld SpecSwap SpecHistory.
From Verif Require SpecFarming.

(** ref-farming/src/token_receiver.rs:138-147: the seed of pool [pid] of the exchange [ex] is "ex@pid"; utils.rs:66-81
    parse_seed_id and wrap_mft_token_id turn it back into ":pid" when the stake is withdrawn. *)
Definition mft_seed (ex : AccountId) (t : string) : string := ex +:+ "@" +:+ t.
Definition seed_of (ex : AccountId) (pid : N) : string := mft_seed ex (pretty pid).
Definition share_id (t : string) : string := ":" +:+ t.
(** Not a seed of shares of this exchange: tokens, whose names are account ids, and shares of other exchanges. *)
Definition foreign (ex : AccountId) (s : string) : Prop := forall t, s <> mft_seed ex t.

(** Shares already moved by mft_transfer_call whose resolution has not run. *)
Record Notice := mkNotice { nt_id : string; nt_from : AccountId; nt_to : AccountId; nt_amount : N }.
Definition notice (f : Flight) : option Notice :=
  match f with Leaving (PMft id s r x) => Some (mkNotice id s r x) | _ => None end.
Definition notices (w : World) : gmap N Notice := omap notice (w_flights w).

(** The exchange in its world, the farm in its own, and the answers the farm has given.  The farm's record of its
    holdings ([SpecFarming.w_hold]) is bookkeeping for the shares of this exchange: no event depends on it. *)
Record Stakes := mkStakes { k_w : World; k_f : SpecFarming.FWorld; k_answers : gmap N (option N) }.
Definition k_self (k : Stakes) : AccountId := ex_self (w_ex (k_w k)).
Definition k_hold (k : Stakes) (s : string) : N := mget (SpecFarming.w_hold (k_f k)) s.

(** The farm [fa] calls the exchange only by its promises; the resolution of a transfer to the farm is given its answer. *)
Definition exchange_event (fa : AccountId) (k : Stakes) (ev : Event) : Prop :=
  match ev with
  | EvCall e _ => e_caller e <> fa
  | EvMftResolve id _ ret => forall n, notices (k_w k) !! id = Some n -> nt_to n = fa -> k_answers k !! id = Some ret
  | _ => True
  end.
(** Tokens and shares of other exchanges come and go; any transfer of the farm may fail. *)
Definition farm_event (k : Stakes) (ev : SpecFarming.fevent) : Prop :=
  match ev with
  | SpecFarming.EvToken _ s _ _ _ | SpecFarming.EvDonate s _ => foreign (k_self k) s
  | SpecFarming.EvRemote id true => forall p, SpecFarming.w_pend (k_f k) !! id = Some p -> foreign (k_self k) (SpecFarming.pend_asset p)
  | _ => True
  end.
Definition answer_used (m : gmap N (option N)) (ev : Event) : gmap N (option N) :=
  match ev with EvMftResolve id _ _ => delete id m | _ => m end.
(** The farm after its transfer [i] of seed [s] was executed. *)
Definition paid_out (f : SpecFarming.FWorld) (i : nat) (s : string) (a : AccountId) (x : N) : SpecFarming.FWorld :=
  SpecFarming.mkFW (SpecFarming.w_now f) (SpecFarming.w_c f) (<[s := mget (SpecFarming.w_hold f) s - x]> (SpecFarming.w_hold f))
    (<[i := SpecFarming.PSeed s a x (Some true)]> (SpecFarming.w_pend f)) (SpecFarming.w_next f).

Inductive k_step (fa : AccountId) (k : Stakes) : Stakes -> Prop :=
| k_exchange ev w' :               (* anything that happens to the exchange *)
    exchange_event fa k ev -> w_step (k_w k) ev = Some w' -> k_step fa k (mkStakes w' (k_f k) (answer_used (k_answers k) ev))
| k_farm ev f' :                   (* anything that happens to the farm, calls by anybody included *)
    farm_event k ev -> SpecFarming.fstep (k_f k) ev = Some f' -> k_step fa k (mkStakes (k_w k) f' (k_answers k))
| k_accept id n pid now f' :       (* mft_on_transfer of the farm stakes the shares and answers 0 *)
    notices (k_w k) !! id = Some n -> nt_to n = fa -> k_answers k !! id = None -> mft_pool_of (nt_id n) = Some pid ->
    SpecFarming.fstep (k_f k) (SpecFarming.EvToken now (seed_of (k_self k) pid) (nt_from n) (nt_amount n) None) = Some f' ->
    k_step fa k (mkStakes (k_w k) f' (<[id := Some 0]> (k_answers k)))
| k_refuse id n :                  (* ... panics *)
    notices (k_w k) !! id = Some n -> nt_to n = fa -> k_answers k !! id = None ->
    k_step fa k (mkStakes (k_w k) (k_f k) (<[id := None]> (k_answers k)))
| k_pay i e t a x w' :             (* mft_transfer by the farm is executed *)
    SpecFarming.w_pend (k_f k) !! i = Some (SpecFarming.PSeed (mft_seed (k_self k) t) a x None) -> e_caller e = fa ->
    w_step (k_w k) (EvCall e (CMftTransfer (share_id t) a x)) = Some w' ->
    k_step fa k (mkStakes w' (paid_out (k_f k) i (mft_seed (k_self k) t) a x) (k_answers k)).
Inductive k_reach (fa : AccountId) (k0 : Stakes) : Stakes -> Prop :=
| k_reach_refl : k_reach fa k0 k0
| k_reach_step k k' : k_reach fa k0 k -> k_step fa k k' -> k_reach fa k0 k'.

(** At the beginning the farm has any past with other seeds, no shares of this exchange are on their way to it, it has
    staked none in turn, and its holdings are not overstated. *)
Definition k_start (fa : AccountId) (k : Stakes) : Prop :=
  (ex_wf (w_now (k_w k)) (w_ex (k_w k)) /\ forall id f, w_flights (k_w k) !! id = Some f -> id < w_next (k_w k)) /\
  SpecFarming.freachable (k_f k) /\ fa <> k_self k /\
  k_answers k = ∅ /\ (forall id n, notices (k_w k) !! id = Some n -> nt_to n <> fa) /\
  (forall pid, farm_at (w_ex (k_w k)) pid fa = 0 /\ burrow_at (w_ex (k_w k)) pid fa = 0) /\
  (forall pid, k_hold k (seed_of (k_self k) pid) <= shares_at (w_ex (k_w k)) pid fa) /\
  (forall t, (forall pid : N, t <> pretty pid) -> k_hold k (mft_seed (k_self k) t) = 0).

(** Shares of pool [pid] moved to the farm and not (yet) accepted as a stake. *)
Definition unstaked (fa : AccountId) (pid : N) (answer : option (option N)) (n : Notice) : N :=
  if String.eqb (nt_to n) fa && bool_decide (mft_pool_of (nt_id n) = Some pid) then
    match answer with Some (Some _) => 0 | _ => nt_amount n end
  else 0.
Definition on_the_way (fa : AccountId) (k : Stakes) (pid : N) : N :=
  msum (fun id n => unstaked fa pid (k_answers k !! id) n) (notices (k_w k)).
