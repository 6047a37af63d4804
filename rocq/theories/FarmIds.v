(** * Names of seeds and farms in the farming contracts.

    In the code a seed id and a farm id are strings.  Farming.v and Boost.v take a farm id as a pair
    of a seed id and an index, and a seed id as the name of what is staked; this file has the code
    that makes and reads the strings, so that C104 can show what that leaves out.
    [usize] has 32 bits on wasm32, the target of the contracts. *)
From Coq Require Import Ascii.
From stdpp Require Import pretty.
From Verif Require Import Base Exchange.

(** [str::split] at a character *)
Fixpoint split_on (at_ : ascii) (s : string) : list string :=
  match s with
  | EmptyString => [EmptyString]
  | String ch r =>
      if Ascii.eqb ch at_ then EmptyString :: split_on at_ r
      else match split_on at_ r with h :: t => String ch h :: t | [] => [String ch EmptyString] end
  end.
(** [str::rfind] of a character and [split_at] around it *)
Fixpoint rsplit_on (at_ : ascii) (s : string) : option (string * string) :=
  match s with
  | EmptyString => None
  | String ch r =>
      match rsplit_on at_ r with
      | Some (a, b) => Some (String ch a, b)
      | None => if Ascii.eqb ch at_ then Some (EmptyString, r) else None
      end
  end.
(** [parse::<u32>] and, on wasm32, [parse::<usize>] *)
Definition parse_u32 (s : string) : option N := n ← parse_u64 s; _ ← ensure (n <? W32); Some n.

(** ** ref-farming *)
(** utils.rs:93-95 gen_farm_id; mock-boost-farming/src/utils.rs:95-97, where FARM_ID_PREFIX is "#" *)
Definition gen_farm_id (seed : string) (index : N) : string := (seed +:+ "#" +:+ pretty index)%string.
(** utils.rs:85-91 parse_farm_id *)
Definition parse_farm_id (id : string) : option (string * N) :=
  match split_on "#" id with
  | [seed; index] => i ← parse_u32 index; Some (seed, i)
  | _ => None
  end.
(** utils.rs:73-82 parse_seed_id; MFT_TAG is "@" (utils.rs:18) *)
Definition parse_seed_id (id : string) : option (string * string) :=
  match split_on "@" id with
  | [receiver; token] => Some (receiver, token)
  | [receiver] => Some (receiver, receiver)
  | _ => None
  end.
(** farm_seed.rs:19-23 SeedType *)
Inductive SeedType := SeedFT | SeedMFT.
(** farm_seed.rs:43-50, the type of a new seed *)
Definition new_seed_type (id : string) : option SeedType :=
  '(receiver, token) ← parse_seed_id id; Some (if String.eqb receiver token then SeedFT else SeedMFT).
(** What arrives: tokens ([None]) or an amount of a multi-token id, from the contract [sender].
    token_receiver.rs:24-47: the seed of tokens is their contract.
    token_receiver.rs:99-118 and 136-145: the seed of ":<u64>" is "{contract}@{number}"; other ids are refused. *)
Definition seed_of_deposit (sender : AccountId) (id : option string) : option (string * SeedType) :=
  match id with
  | None => Some (sender, SeedFT)
  | Some (String ch r) =>
      if Ascii.eqb ch (ascii_of_N 58) then n ← parse_u64 r; Some ((sender +:+ "@" +:+ pretty n)%string, SeedMFT)
      else None
  | Some EmptyString => None
  end.
(** actions_of_seed.rs:30-69 withdraw_seed: the contract called, and the multi-token id it is told *)
Definition withdraw_goes_to (ty : SeedType) (seed : string) : option (AccountId * option string) :=
  match ty with
  | SeedFT => Some (seed, None)
  | SeedMFT => '(receiver, token) ← parse_seed_id seed; Some (receiver, Some (String ":" token))
  end.

(** The types of seeds over time.  [ty_types]: the type of every seed; [ty_staked]: the seeds somebody
    has deposited; [ty_pending]: withdrawals not yet resolved.  Amounts, farms and farmers are left out
    (they are in Farming.v): a withdrawal is possible here for every seed ever deposited, in the code
    only for farmers with a stake (farmer.rs:75-85). *)
Record Types := mkTypes { ty_types : gmap string SeedType; ty_staked : gset string; ty_pending : list (string * SeedType) }.
Inductive TyEvent :=
  | TyCreate (seed : string)                              (* actions_of_farm.rs:44-68, a farm of a new seed *)
  | TyDeposit (sender : AccountId) (id : option string)   (* actions_of_seed.rs:198-217 *)
  | TyWithdraw (seed : string)                            (* actions_of_seed.rs:17-30, 219-250 *)
  | TyResolve (k : nat) (failed : bool).                  (* actions_of_seed.rs:73-120, 122-169 *)
Definition ty_step (w : Types) (e : TyEvent) : option Types :=
  match e with
  | TyCreate seed =>
      match ty_types w !! seed with
      | Some _ => Some w
      | None => ty ← new_seed_type seed; Some (mkTypes (<[seed := ty]> (ty_types w)) (ty_staked w) (ty_pending w))
      end
  | TyDeposit sender id =>
      '(seed, ty) ← seed_of_deposit sender id;
      _ ← ty_types w !! seed;
      Some (mkTypes (<[seed := ty]> (ty_types w)) ({[seed]} ∪ ty_staked w) (ty_pending w))
  | TyWithdraw seed =>
      ty ← ty_types w !! seed;
      _ ← ensure (bool_decide (seed ∈ ty_staked w));
      Some (mkTypes (ty_types w) (ty_staked w) ((seed, ty) :: ty_pending w))
  | TyResolve k failed =>
      '(seed, ty) ← ty_pending w !! k;
      let rest := delete k (ty_pending w) in
      if failed : bool then
        _ ← ty_types w !! seed;
        Some (mkTypes (<[seed := ty]> (ty_types w)) (ty_staked w) rest)
      else Some (mkTypes (ty_types w) (ty_staked w) rest)
  end.
Definition ty_none : Types := mkTypes ∅ ∅ [].
(** A call that panics leaves everything as it is. *)
Definition ty_run (w : Types) (es : list TyEvent) : Types :=
  fold_left (fun w e => match ty_step w e with Some w' => w' | None => w end) es w.

(** ** mock-boost-farming *)
(** utils.rs:99-103 parse_farm_id *)
Definition bo_parse_farm_id (id : string) : option (string * N) :=
  '(seed, index) ← rsplit_on "#" id; i ← parse_u32 index; Some (seed, i).
(** token_receiver.rs:78-80: the seed of ":x" is "{contract}@x" *)
Definition bo_seed_of_mft (sender : AccountId) (id : string) : option string :=
  match id with
  | String ch r => if Ascii.eqb ch (ascii_of_N 58) then Some (sender +:+ "@" +:+ r)%string else None
  | EmptyString => None
  end.
