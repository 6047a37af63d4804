(** * Pool shares staked in mock-boost-farming: the exchange and the boost farm as one system

    As in SpecStake.v, except that the boost farm never sends anything: its withdrawals are commented out. *)
From Coq Require Import Ascii.
From Verif Require Import Base BaseLemmas Boost SpecBoost Account Pool Exchange SpecExchange SpecWorld SpecSwap SpecHistory SpecStake FarmIds.

(** What is left of [s] after the prefix [p]. *)
Fixpoint after (p s : string) : option string :=
  match p, s with
  | EmptyString, _ => Some s
  | String c p, String d s => if Ascii.eqb c d then after p s else None
  | String _ _, EmptyString => None
  end.
(** The seed id [s] is that of shares of pool [pid]: "ex@t" with ":t" an id of these shares.  There are several,
    since ":7" and ":007" are both ids of pool 7 (C62). *)
Definition names_pool (ex : AccountId) (pid : N) (s : string) : bool :=
  match after (ex +:+ "@") s with
  | Some t => bool_decide (mft_pool_of (String ":" t) = Some pid)
  | None => false
  end.

(** The exchange in its world, the boost farm in its own, the answers the farm has given to notices.  As in SpecStake.v the
    farm's record of its holdings of shares is bookkeeping. *)
Record Lockups := mkLockups { l_w : World; l_b : BWorld; l_answers : gmap N (option N) }.
Definition l_self (l : Lockups) : AccountId := ex_self (w_ex (l_w l)).

(** The farm [fa] does not call the exchange; the resolution of a transfer to it is given its answer. *)
Definition l_exchange_event (fa : AccountId) (l : Lockups) (ev : Event) : Prop :=
  match ev with
  | EvCall e _ => e_caller e <> fa
  | EvMftResolve id _ ret => forall n, notices (l_w l) !! id = Some n -> nt_to n = fa -> l_answers l !! id = Some ret
  | _ => True
  end.
(** Tokens and shares of other exchanges come by themselves. *)
Definition l_farm_event (l : Lockups) (ev : bevent) : Prop :=
  match ev with BvToken _ _ s _ _ _ | BvGift s _ => foreign (l_self l) s | BvCall _ _ _ _ => True end.

Inductive l_step (fl : Floats) (fa : AccountId) (l : Lockups) : Lockups -> Prop :=
| l_exchange ev w' :               (* anything that happens to the exchange *)
    l_exchange_event fa l ev -> w_step (l_w l) ev = Some w' -> l_step fl fa l (mkLockups w' (l_b l) (answer_used (l_answers l) ev))
| l_farm ev b' :                   (* anything that happens to the farm *)
    l_farm_event l ev -> bstep fl (l_b l) ev = Some b' -> l_step fl fa l (mkLockups (l_w l) b' (l_answers l))
| l_accept id n s now msg b' :     (* mft_on_transfer of the farm stakes the shares, free or locked, and answers 0 *)
    notices (l_w l) !! id = Some n -> nt_to n = fa -> l_answers l !! id = None -> bo_seed_of_mft (l_self l) (nt_id n) = Some s ->
    bstep fl (l_b l) (BvToken now true s (nt_from n) (nt_amount n) msg) = Some b' ->
    l_step fl fa l (mkLockups (l_w l) b' (<[id := Some 0]> (l_answers l)))
| l_refuse id n :                  (* ... panics *)
    notices (l_w l) !! id = Some n -> nt_to n = fa -> l_answers l !! id = None ->
    l_step fl fa l (mkLockups (l_w l) (l_b l) (<[id := None]> (l_answers l))).
Inductive l_reach (fl : Floats) (fa : AccountId) (l0 : Lockups) : Lockups -> Prop :=
| l_reach_refl : l_reach fl fa l0 l0
| l_reach_step l l' : l_reach fl fa l0 l -> l_step fl fa l l' -> l_reach fl fa l0 l'.

(** At the beginning the farm has any past with other seeds, and no shares of this exchange are staked in it or on their way. *)
Definition l_start (fl : Floats) (fa : AccountId) (l : Lockups) : Prop :=
  (ex_wf (w_now (l_w l)) (w_ex (l_w l)) /\ forall id f, w_flights (l_w l) !! id = Some f -> id < w_next (l_w l)) /\
  breach fl (l_b l) /\ fa <> l_self l /\ l_answers l = ∅ /\
  (forall id n, notices (l_w l) !! id = Some n -> nt_to n <> fa) /\
  (forall pid, farm_at (w_ex (l_w l)) pid fa = 0 /\ burrow_at (w_ex (l_w l)) pid fa = 0) /\
  (forall t, shares_get (bw_hold (l_b l)) (mft_seed (l_self l) t) = 0).

(** Shares of pool [pid] moved to the farm and not (yet) accepted. *)
Definition coming (fa : AccountId) (l : Lockups) (pid : N) : N :=
  msum (fun id n => unstaked fa pid (l_answers l !! id) n) (notices (l_w l)).
(** Staked under the seed id [s], and taken as penalties for breaking locks. *)
Definition taken_in (l : Lockups) (s : string) : N := SpecBoost.seed_total (bw_c (l_b l)) s + shares_get (b_slashed (bw_c (l_b l))) s.
