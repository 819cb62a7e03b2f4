(** Property theorems about the benchmark drivers and the command line (C195-C197). *)
From Verif Require Import Base Sched_Model Sched_Spec Bench_Model Bench_Spec Bench_Proofs Bench_Proofs2 Bench_Proofs3.

(** * C195 *)
(** The benchmarks of five protocols do not give both parties the same set ... *)
Theorem C195_sets_refuted : forall b, b ∈ [DcwR; Rr16; Dkt; Ecdh; Kkrt] -> exists prng l S R k, noRepeat prng /\
  benchSets prng b true l !! k = Some S /\ benchSets prng b false l !! k = Some R /\ length S = length R /\ common R S = [] /\ R <> [].
Proof.
  set (pr := fun (s : N) (i : nat) => (s + N.of_nat i) * (s + N.of_nat i + 1) + 2 * s).
  intros b Hb. exists pr, (mkLaunch [1%nat] [1%nat] [] [] 2).
  assert (noRepeat pr) as Hn.
  { intros s s' i j E. unfold pr in E. assert (s + N.of_nat i = s' + N.of_nat j) as X by nia. rewrite X in E. split; lia. }
  assert (forall S R k, benchSets pr b true (mkLaunch [1%nat] [1%nat] [] [] 2) !! k = Some S -> benchSets pr b false (mkLaunch [1%nat] [1%nat] [] [] 2) !! k = Some R ->
    length S = length R -> common R S = [] -> R <> [] -> exists S R k, noRepeat pr /\
    benchSets pr b true (mkLaunch [1%nat] [1%nat] [] [] 2) !! k = Some S /\ benchSets pr b false (mkLaunch [1%nat] [1%nat] [] [] 2) !! k = Some R /\ length S = length R /\ common R S = [] /\ R <> []) as W
    by (intros S R k; exists S, R, k; done).
  rewrite !elem_of_cons in Hb. destruct Hb as [->|[->|[->|[->|[->|Hb]]]]]; [..|by apply elem_of_nil in Hb];
    (eapply (W _ _ 1%nat); [vm_compute; reflexivity..|vm_compute; discriminate]).
Qed.
Print Assumptions C195_sets_refuted.
(** ... the others do, with every generator, in every pass. *)
Theorem C195_same_partial b : b ∈ [Rr17a; Rr17aSM; Rr17b; Grr18] -> sameSets b.
Proof. exact (same_sets b). Qed.
Print Assumptions C195_same_partial.
(** RR16, DCW, DKT, ECDH: in pass [k] (from 0) only [n - k] of the [n] items are in both sets. *)
Theorem C195_shifted_partial b prng l k p : b ∈ [DcwR; Rr16; Dkt; Ecdh] -> passes b true l !! k = Some p -> (forall i j, prng (seedOf b true) i = prng (seedOf b true) j -> i = j) ->
  exists S R, benchSets prng b true l !! k = Some S /\ benchSets prng b false l !! k = Some R /\ length S = pItems p /\ length R = pItems p /\ length (common R S) = (pItems p - k)%nat.
Proof. exact (shifted b prng l k p). Qed.
Print Assumptions C195_shifted_partial.
(** KKRT: no common items if the generators with the two seeds have no block in common. *)
Theorem C195_kkrt_partial prng l k p : passes Kkrt true l !! k = Some p -> (forall i j, prng (seedOf Kkrt true) i <> prng (seedOf Kkrt false) j) ->
  exists S R, benchSets prng Kkrt true l !! k = Some S /\ benchSets prng Kkrt false l !! k = Some R /\ length S = pItems p /\ length R = pItems p /\ common R S = [].
Proof. exact (kkrt_sets prng l k p). Qed.
Print Assumptions C195_kkrt_partial.
(** The sets of one party have no item twice, within a pass or in different passes. *)
Theorem C195_fresh prng b sender l : (forall i j, prng (seedOf b sender) i = prng (seedOf b sender) j -> i = j) -> NoDup (concat (benchSets prng b sender l)).
Proof. exact (driver_fresh prng b sender l). Qed.
Print Assumptions C195_fresh.
Definition exLaunch : launch := mkLaunch [2%nat; 3%nat] [1%nat; 4%nat] [1; 2] [5] 2.
Definition exPrng (s : N) (i : nat) : N := s mod 2 ^ 64 + (if s <? epi32 4253465 500000000 0 0 then 0 else 2 ^ 100) + N.of_nat i.
Definition exCommon (k : nat) : option nat :=
  match benchSets exPrng DcwR true exLaunch !! k, benchSets exPrng DcwR false exLaunch !! k with Some l1, Some l2 => Some (length (common l2 l1)) | _, _ => None end.
Example C195_example :
  passes Rr16 true exLaunch !! 3%nat = Some (mkPass 2 4 0 0) /\ passes DcwR true exLaunch !! 3%nat = Some (mkPass 3 1 0 0) /\ length (passes Grr18 true exLaunch) = 16%nat /\
  (forall i j, exPrng (seedOf Rr16 true) i = exPrng (seedOf Rr16 true) j -> i = j) /\
  map exCommon [0%nat; 1%nat; 2%nat; 3%nat] = [Some 2%nat; Some 1%nat; Some 1%nat; Some 0%nat] /\
  benchSets exPrng Rr17a true exLaunch !! 1%nat = Some (map (exPrng (seedOf Rr17a true)) [3%nat; 4%nat]) /\
  benchSets exPrng Kkrt true exLaunch !! 0%nat <> benchSets exPrng Kkrt false exLaunch !! 0%nat.
Proof.
  split; [reflexivity|]. split; [reflexivity|]. split; [reflexivity|]. split; [unfold exPrng; intros i j; lia|]. split; [vm_compute; reflexivity|]. split; [vm_compute; reflexivity|]. vm_compute. discriminate.
Qed.

(** * C196 *)
(** Threads that use each channel in one direction alone: if one schedule gets to the end, every schedule does. *)
Theorem C196_any_schedule scripts tr s : oneSender scripts -> channelGets scripts -> exec (start scripts) tr s -> finished s -> completes scripts.
Proof. exact (one_suffices scripts tr s). Qed.
Print Assumptions C196_any_schedule.
(** All benchmark drivers, for all sizes, thread numbers and trials, around any conversations of [init] and [sendInput]. *)
Theorem C196_bench b l iniS iniR inpS inpR :
  (forall p, p ∈ passes b true l -> converse [] [] (iniS p) (iniR p) [] [] /\ converse [] [] (inpS p) (inpR p) [] []) ->
  completes (twoParties (benchOps b true iniS inpS l) (benchOps b false iniR inpR l)).
Proof. exact (bench_completes b l iniS iniR inpS inpR). Qed.
Print Assumptions C196_bench.
(** The ping test. *)
Theorem C196_ping tries trials big : completes (twoParties (pingSender tries trials big) (pingReceiver tries trials big)).
Proof. exact (ping_completes tries trials big). Qed.
Print Assumptions C196_ping.
Theorem C196_counters tries trials big :
  counter true (pingSender tries trials big) = counter false (pingReceiver tries trials big) /\ counter true (pingReceiver tries trials big) = counter false (pingSender tries trials big).
Proof. exact (ping_counters tries trials big). Qed.
Print Assumptions C196_counters.
Example C196_example :
  counter true (pingSender 4 256 131072) = 268435462 /\ counter true (pingReceiver 4 256 131072) = 268435462 /\
  (exists tr s, exec (start (twoParties [tx 5; rx 7] [tx 7; rx 5])) tr s /\ finished s) /\ ~ completes (twoParties [rx 7; tx 5] [rx 5; tx 7]) /\
  length (benchOps Rr17a true (fun p => [tx 32; rx 33]) (fun p => [rx (N.of_nat (pItems p))]) exLaunch) = 112%nat.
Proof.
  split; [vm_compute; reflexivity|]. split; [vm_compute; reflexivity|]. split; [|split; [|vm_compute; reflexivity]].
  - exact (converse_exec _ _ _ _ _ _ (c_tx1 [] [] 5 [rx 7] [tx 7; rx 5] [] [] (c_tx2 [5] [] 7 [rx 7] [rx 5] [] [] (c_rx1 [5] [] 7 [] [rx 5] [] [] (c_rx2 [] [] 5 [] [] [] [] (c_nil [] []))))) [] [] [] eq_refl eq_refl).
  - intros H. destruct (H [] _ (exec_nil _)) as (_ & _ & [Hf|(lb & s' & Hs)]).
    + unfold finished in Hf. apply Forall_cons_1 in Hf as [X _]. discriminate X.
    + inversion Hs as [? i e rest Ht Hen]; subst. destruct i as [|[|i]]; cbn in Ht; [injection Ht as <- <-; discriminate Hen..|done].
Qed.

(** * C197 *)
(** -nn 31 and more: not 2^n items. *)
Theorem C197_pow_refuted : exists v n, v < 64 /\ powItems v = Done n /\ n <> 2 ^ v /\ powItems (v + 1) = UB.
Proof. exists 31, (2 ^ 64 - 2 ^ 31). split; [done|]. split; [reflexivity|]. split; [vm_compute; discriminate|reflexivity]. Qed.
Print Assumptions C197_pow_refuted.
Theorem C197_pow_partial v : powItems v = Done (2 ^ v) <-> v < 31.
Proof. split; [intros H; exact (pow_only v _ H eq_refl)|exact (pow_small v)]. Qed.
Print Assumptions C197_pow_partial.
(** The help text: "0 means PSI sender and network server". It is the other way round. *)
Theorem C197_role_refuted : exists r, r = 0 /\ benchRole r <> (Server, PsiSender) /\ benchRole r = (Client, PsiReceiver).
Proof. exists 0. split; [done|]. split; [discriminate|reflexivity]. Qed.
Print Assumptions C197_role_refuted.
(** Role 0 and any other role: one network server, one PSI sender; the server is the PSI sender. *)
Theorem C197_role_partial r : benchRole r = (Client, PsiReceiver) /\ r = 0 \/ benchRole r = (Server, PsiSender) /\ r <> 0.
Proof. unfold benchRole. destruct (N.eqb_spec r 0) as [->|H]; [by left|by right]. Qed.
Print Assumptions C197_role_partial.
(** The three parties of a PIR-PSI run: every session has one server and one client, and every party gets the numbers that it expects from the other end of the session. *)
Theorem C197_sessions_partial : forall name, (name < 3)%nat -> exists i j, i <> j /\ i < 3 /\ j < 3 /\ (name, Server) ∈ pirEndpoints i /\ (name, Client) ∈ pirEndpoints j /\
  (forall k m, k < 3 -> (name, m) ∈ pirEndpoints k -> k = i \/ k = j) /\
  (forall x, (name, x) ∈ pirExpects i -> pirId j = x) /\ (forall x, (name, x) ∈ pirExpects j -> pirId i = x).
Proof.
  assert (forall n, (n < 3)%nat -> n = 0%nat \/ n = 1%nat \/ n = 2%nat) as C by lia. assert (forall k, k < 3 -> k = 0 \/ k = 1 \/ k = 2) as C2 by lia.
  intros name Hn. destruct (C _ Hn) as [->|[->| ->]].
  - exists 1, 0. repeat (split; [first [done|lia|apply (bool_decide_unpack _); vm_compute; exact I|by apply elem_of_list_here|by apply elem_of_list_further, elem_of_list_here]|]).
    split; [|split].
    + intros k m Hk Hin. destruct (C2 _ Hk) as [->|[->| ->]]; auto. exfalso. change ((0%nat, m) ∈ [(1%nat, Server); (2%nat, Server)]) in Hin. rewrite !elem_of_cons, elem_of_nil in Hin. destruct Hin as [X|[X|[]]]; discriminate X.
    + intros x Hx. change ((0%nat, x) ∈ [(0%nat, 10021)]) in Hx. apply elem_of_list_singleton in Hx. by injection Hx as ->.
    + intros x Hx. change ((0%nat, x) ∈ [(0%nat, 1010); (1%nat, 1011)]) in Hx. rewrite !elem_of_cons, elem_of_nil in Hx. destruct Hx as [X|[X|[]]]; [by injection X as ->|discriminate X].
  - exists 2, 0. repeat (split; [first [done|lia|by apply elem_of_list_here|by apply elem_of_list_further, elem_of_list_here]|]).
    split; [|split].
    + intros k m Hk Hin. destruct (C2 _ Hk) as [->|[->| ->]]; auto. exfalso. change ((1%nat, m) ∈ [(0%nat, Server); (2%nat, Client)]) in Hin. rewrite !elem_of_cons, elem_of_nil in Hin. destruct Hin as [X|[X|[]]]; discriminate X.
    + intros x Hx. change ((1%nat, x) ∈ [(1%nat, 10021)]) in Hx. apply elem_of_list_singleton in Hx. by injection Hx as ->.
    + intros x Hx. change ((1%nat, x) ∈ [(0%nat, 1010); (1%nat, 1011)]) in Hx. rewrite !elem_of_cons, elem_of_nil in Hx. destruct Hx as [X|[X|[]]]; [discriminate X|by injection X as ->].
  - exists 2, 1. repeat (split; [first [done|lia|by apply elem_of_list_here|by apply elem_of_list_further, elem_of_list_here]|]).
    split; [|split].
    + intros k m Hk Hin. destruct (C2 _ Hk) as [->|[->| ->]]; auto. exfalso. change ((2%nat, m) ∈ [(0%nat, Client); (1%nat, Client)]) in Hin. rewrite !elem_of_cons, elem_of_nil in Hin. destruct Hin as [X|[X|[]]]; discriminate X.
    + intros x Hx. change ((2%nat, x) ∈ [(1%nat, 10021)]) in Hx. apply elem_of_list_singleton in Hx. discriminate Hx.
    + intros x Hx. change ((2%nat, x) ∈ [(0%nat, 10021)]) in Hx. apply elem_of_list_singleton in Hx. discriminate Hx.
Qed.
Print Assumptions C197_sessions_partial.
(** The drivers of [benchmark] take no channel beyond the end. *)
Theorem C197_channels_partial ts t : t ∈ ts -> exists m, maxThreads ts = Some m /\ getChannels m t = Some (seq 0 t).
Proof. exact (channels_ok ts t). Qed.
Print Assumptions C197_channels_partial.
(** The PIR-PSI drivers take one channel even if all numbers of threads are 0. *)
Theorem C197_channels_refuted : exists ts m, ts <> [] /\ maxThreads ts = Some m /\ getChannels m 1 = None.
Proof. exists [0%nat], 0%nat. done. Qed.
Print Assumptions C197_channels_refuted.
Example C197_example : powItems 20 = Done 1048576 /\ 4%nat ∈ [1%nat; 4%nat; 2%nat] /\ maxThreads [1%nat; 4%nat; 2%nat] = Some 4%nat /\ pirRole 1 = Some PsiSender /\ pirRole 3 = None /\ benchParties None = [0; 1].
Proof. split; [reflexivity|]. split; [by apply elem_of_list_further, elem_of_list_here|]. done. Qed.
