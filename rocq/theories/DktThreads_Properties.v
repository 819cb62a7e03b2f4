(** Property theorems about the threads of DKT. *)
From Verif Require Import Base DktThreads_Model DktThreads_Proofs.

(** C92: no thread reads a local variable of a thread that has returned. False of the sender: thread 0 hands out pointers and returns. *)
Theorem C92_lifetime_refuted : exists T sched, trun sched (sendThreads T) = UB.
Proof. exists 2%nat, [1; 0; 0; 0; 1; 1; 1; 0; 0; 1; 1]%nat. vm_compute. done. Qed.
Print Assumptions C92_lifetime_refuted.

(** What holds: the receiver with any number of channels, in any order of steps. *)
Theorem C92_receiver_partial : forall T sched, exists st, trun sched (recvThreads T) = Done st.
Proof. exact recv_threads. Qed.
Print Assumptions C92_receiver_partial.
Example C92_receiver_example :
  trun [1; 0; 0; 1; 1; 1; 0; 0; 1; 1; 1; 0; 0; 0; 1]%nat (recvThreads 2) =
    Done (mkT [[]; []] [(MergedP, 0); (InputHashP, 1); (Sigma2ValsP, 0); (Sigma2HashP, 1); (SigmaValsP, 0); (SigmaHashP, 1)]%nat).
Proof. vm_compute. done. Qed.

(** The sender with one channel. Missing: the sender with several channels. *)
Theorem C92_sender_partial : forall sched, exists st, trun sched (sendThreads 1) = Done st.
Proof. exact send_one. Qed.
Print Assumptions C92_sender_partial.
Example C92_sender_example : trun [0; 0]%nat (sendThreads 1) = Done (mkT [[]] [(Sigma2PhiP, 0); (PchAllP, 0)]%nat).
Proof. vm_compute. done. Qed.

(** C93: the threads never wait for each other for ever: while a thread has not returned, some thread can take a step. *)
Theorem C93_receiver : forall T sched st, trun sched (recvThreads T) = Done st ->
  (exists a o l, tRem st !! a = Some (o :: l)) -> exists a, tstep a st <> Done st.
Proof. exact recv_progress. Qed.
Print Assumptions C93_receiver.
Theorem C93_sender : forall T sched st, trun sched (sendThreads T) = Done st ->
  (exists a o l, tRem st !! a = Some (o :: l)) -> exists a, tstep a st <> Done st.
Proof. exact send_progress. Qed.
Print Assumptions C93_sender.
(** Thread 0 waits; thread 1 can go on. *)
Example C93_example :
  trun [0; 0]%nat (recvThreads 2) = Done (recvThreads 2) /\ tstep 0 (recvThreads 2) = Done (recvThreads 2) /\ tstep 1 (recvThreads 2) <> Done (recvThreads 2).
Proof. split; [vm_compute; done|]. split; vm_compute; done. Qed.
