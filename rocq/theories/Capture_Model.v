(** How the threads of DCW, RR17a, RR17b and GRR18 get their seeds: which variable the closure of a thread refers to, and when that variable ends.
    wR, wS: libPSI/PSI/Dcw/DcwRBfPsiReceiver.cpp, DcwRBfPsiSender.cpp; aR, aS: libPSI/MPSI/Rr17/Rr17a/Rr17aMPsiReceiver.cpp, Rr17aMPsiSender.cpp; bR, bS: libPSI/MPSI/Rr17/Rr17b/Rr17bMPsiReceiver.cpp,
    Rr17bMPsiSender.cpp; gR, gS: libPSI/MPSI/Grr18/Grr18MPsiReceiver.cpp, Grr18MPsiSender.cpp.

    Simplifications for the whole file: a thread does one thing, namely read its seed (as an argument of the routine it calls). The generators the seeds come from are the list of seeds drawn.
    Variables are objects of the C++ abstract machine: one for each time the declaration is passed. Reading one after its end is undefined behaviour. *)
From Verif Require Import Base.

(** What the spawning thread does. [Spawn x]: a thread whose closure refers
    to [x] (capture by reference); [SpawnCopy x]: whose closure has a copy
    of [x]. Threads are numbered in the order of the spawns. The statements
    of wS:113-134, wR:116-145 and of the other loops cited below. *)
Inductive op := Decl (x : nat) (v : N) | Set_ (x : nat) (v : N) | Spawn (x : nat) | SpawnCopy (x : nat) | End_ (x : nat) | Join (t : nat).
(** A thread that has not read its seed yet, or what it read: [None] if the
    variable had ended. The closures of wS:118-122, wR:126-130 and of the
    other loops cited below. *)
Inductive thread := Ref (x : nat) | Copy (v : N) | Has (r : option N).
(** What the spawning thread still does, the variables that are alive, and
    the threads: wS:113-134. *)
Record cstate := mkC { prog : list op; mem : nat -> option N; threads : list thread }.
(** Sets or ends variable [x] (wS:115, the end of the loop body wS:125). *)
Definition put (x : nat) (v : option N) (m : nat -> option N) : nat -> option N := fun y => if (y =? x)%nat then v else m y.
(** A step of the spawning thread ([std::thread::join] waits for the thread)
    or the read of a thread. The order between the spawning thread
    (wS:113-134) and its threads is open. *)
Inductive cstep : cstate -> cstate -> Prop :=
| S_decl x v p m ts : cstep (mkC (Decl x v :: p) m ts) (mkC p (put x (Some v) m) ts)
| S_set x v p m ts : cstep (mkC (Set_ x v :: p) m ts) (mkC p (put x (Some v) m) ts)
| S_spawn x p m ts : cstep (mkC (Spawn x :: p) m ts) (mkC p m (ts ++ [Ref x]))
| S_copy x v p m ts : m x = Some v -> cstep (mkC (SpawnCopy x :: p) m ts) (mkC p m (ts ++ [Copy v]))
| S_end x p m ts : cstep (mkC (End_ x :: p) m ts) (mkC p (put x None m) ts)
| S_join t r p m ts : ts !! t = Some (Has r) -> cstep (mkC (Join t :: p) m ts) (mkC p m ts)
| S_ref t x p m ts : ts !! t = Some (Ref x) -> cstep (mkC p m ts) (mkC p m (<[t := Has (m x)]> ts))
| S_own t v p m ts : ts !! t = Some (Copy v) -> cstep (mkC p m ts) (mkC p m (<[t := Has (Some v)]> ts)).
(** At the head of the loop, wS:113, wR:116. *)
Definition cinit (p : list op) : cstate := mkC p (fun _ => None) [].

(** wS:133-134, wR:144-145: all threads are joined. *)
Definition joins (n : nat) : list op := map Join (seq 0 n).
(** wS:113-125, 133-134, wR:116-134, 144-145: [auto seed = prng.get<block>()] in the body of the loop, [std::thread([&, i, chlIter]() {... seed ...})]; the end of the body ends [seed]. *)
Definition dcwSeeds (seeds : list N) : list op := concat (imap (fun i s => [Decl i s; Spawn i; End_ i]) seeds) ++ joins (length seeds).
(** The same as compiled when the variable of each iteration is at the same
    place on the stack, which nothing else overwrites: variable 0.
    wS:113-125, wR:116-134. *)
Definition dcwStack (seeds : list N) : list op := concat (map (fun s => [Set_ 0 s; Spawn 0]) seeds) ++ joins (length seeds).
(** aR:212-241, aS:202-226, bR:188-213, bS:160-180: [std::vector<PRNG> prngs(chls.size() - 1)], in the loop [prngs[i].SetSeed(prng.get<block>())] and [std::thread([&, i, chlIter]() {... prngs[i] ...})];
    the vector ends with the function, after the joins. *)
Definition vectorSeeds (seeds : list N) : list op :=
  map (fun i => Decl i 0) (seq 0 (length seeds)) ++ concat (imap (fun i s => [Set_ i s; Spawn i]) seeds) ++ joins (length seeds) ++ map End_ (seq 0 (length seeds)).
(** aR:327-330, aS:321-324, bR:276-279, bS:256-259, gR:262-265, gS:249-252: [auto seed = mPrng.get<block>()], [std::thread([&, tIdx, seed]() ...)]. *)
Definition copySeeds (seeds : list N) : list op := concat (imap (fun i s => [Decl i s; SpawnCopy i; End_ i]) seeds) ++ joins (length seeds).
