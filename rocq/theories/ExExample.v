(** * A concrete exchange used by the examples beside the theorems *)
From Verif Require Import Base BaseLemmas SimplePool StableMath StablePool Rates Echo Twap Account Pool Exchange SpecExchange SpecWorld.

(** Runs events; [None] if one of them is impossible. *)
Fixpoint w_run (w : World) (l : list Event) : option World :=
  match l with [] => Some w | ev :: r => w' ← w_step w ev; w_run w' r end.
Lemma w_run_reach w0 l : forall w w', w_reach w0 w -> w_run w l = Some w' -> w_reach w0 w'.
Proof.
  induction l as [|ev l IH]; intros w w' Hr H; cbn [w_run] in H; [now injection H as <-|].
  apply bind_Some in H as (w1 & H1 & H). eapply IH; [|exact H]. econstructor; eauto.
Qed.

Definition done_ {A} (x : option A) : bool := match x with Some _ => true | None => false end.
Lemma run_default {A} (d : A) x : done_ x = true -> x = Some (default d x).
Proof. now destruct x. Qed.
Lemma run_pair {A B} (d : A * B) x : done_ x = true -> x = Some ((default d x).1, (default d x).2).
Proof. destruct x as [[a b]|]; done. Qed.

Definition env (t : N) (a : AccountId) (near : N) : Env := mkEnv t a near 0 0 true.
Definition ex_fresh : Exchange := default (mkExchange "" (mkConfig "" "" "" 0 ∅ ∅ true ∅ ∅ 0 None ∅ ∅ (mkEchoLists ∅ ∅ ∅)) [] ∅ ∅ ∅ ∅ (mkRateState ∅ ∅ None None))
  (ex_new "ref" "own" "farm" "bur" 20 5).
Definition w_fresh : World := mkWorld ex_fresh (fun _ => 0) ∅ 0 100.
(** alice provides liquidity to a pool of [a] and [b], bob has [a] to trade *)
Definition ex_events : list Event :=
  [ EvCall (env 101 "own" 1) (CExtendWhitelist ["a"; "b"]);
    EvCall (env 102 "own" (10 ^ 24)) (CStorageDeposit None false);
    EvCall (env 102 "al" (10 ^ 24)) (CStorageDeposit None false);
    EvCall (env 103 "bo" (10 ^ 24)) (CStorageDeposit None false);
    EvCall (env 104 "al" 1) (CAddSimplePool ["a"; "b"] 30);
    EvArrive "a" "al" 1000000 MsgDeposit; EvNotify 1 (env 105 "a" 0);
    EvArrive "b" "al" 1000000 MsgDeposit; EvNotify 2 (env 106 "b" 0);
    EvCall (env 107 "al" 1) (CAddLiquidity 0 [900000; 800000] None);
    EvArrive "a" "bo" 50000 MsgDeposit; EvNotify 4 (env 108 "a" 0) ].
Definition w_live : World := default w_fresh (w_run w_fresh ex_events).
Example w_live_runs : w_run w_fresh ex_events = Some w_live.
Proof. apply run_default. vm_compute. reflexivity. Qed.

(** Events without privileged carelessness or non-standard tokens. *)
Definition plain (ev : Event) : bool :=
  match ev with EvFake _ _ _ _ | EvRogue _ _ | EvCall _ (CRetrieve _ _) | EvCall _ (CModifyWnear _) => false | _ => true end.
Lemma w_run_backed t w0 l : forall w w', forallb plain l = true -> w_backed t w0 w -> w_run w l = Some w' -> w_backed t w0 w'.
Proof.
  induction l as [|ev l IH]; intros w w' Hp Hr H; cbn [w_run forallb] in H, Hp; [now injection H as <-|].
  apply andb_true_iff in Hp as [Hp1 Hp]. apply bind_Some in H as (w1 & H1 & H). eapply IH; [exact Hp| |exact H].
  eapply w_backed_step; eauto; destruct ev; try done; destruct x; done.
Qed.
Definition simple_pool (p : Pool) : bool := match p with PSimple _ => true | PStable _ => false end.
Lemma simple_exact c t : forallb simple_pool (ex_pools c) = true -> exact_token c t.
Proof. unfold exact_token. induction (ex_pools c) as [|p l IH]; intros H; constructor; cbn [forallb] in H; apply andb_true_iff in H as [A B]; [now destruct p|auto]. Qed.

(** ... and there is a stable pool of [b] and [c], a pool of [c] and [a], and a registered referral *)
Definition rich_events : list Event :=
  [ EvCall (env 110 "own" 1) (CExtendWhitelist ["c"]);
    EvCall (env 111 "own" 1) (CInsertReferral "rf" 1000);
    EvCall (env 112 "own" 1) (CAddStablePool KStable ["b"; "c"] [6; 6] 25 240);
    EvCall (env 113 "own" 1) (CAddSimplePool ["c"; "a"] 30);
    EvArrive "b" "al" 9000000 MsgDeposit; EvNotify 7 (env 114 "b" 0);
    EvArrive "c" "al" 9000000 MsgDeposit; EvNotify 8 (env 115 "c" 0);
    EvArrive "a" "al" 9000000 MsgDeposit; EvNotify 9 (env 115 "a" 0);
    EvCall (env 116 "al" 1) (CAddStableLiquidity 1 [5000000; 6000000] 0);
    EvCall (env 117 "al" 1) (CAddLiquidity 2 [1000000; 2000000] None) ].
Definition w_rich : World := default w_fresh (w_run w_live rich_events).
Example w_rich_runs : w_run w_live rich_events = Some w_rich.
Proof. apply run_default. vm_compute. reflexivity. Qed.
