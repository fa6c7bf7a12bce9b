(** C42: three packet buffers always suffice, and none leaks *)
From Coq Require Import Lia.
From Verif Require Import Base BufferModel PoolModel PoolSpec PoolProofs.

(** Whatever events are processed, and whatever happens while they are, there is always a free buffer when one is
    asked for, no freed buffer is accessed, and after the events all buffers are free; at exit the pool
    is found complete. *)
Theorem C42_three_suffice : forall (max : N) (events : list (bevent * list N)),
  match (do s <- init BUFFER_COUNT; run max events s) with
  | Ok s => all_free BUFFER_COUNT s /\ exists s', cleanup_buffers max BUFFER_COUNT s = Ok s'
  | Fatal => True (* packets larger than max_buffer; failure to read from the interface *)
  | Bug | UB => False
  end.
Proof. exact pool_main. Qed.
Print Assumptions C42_three_suffice.

(** A packet which is received, decrypted, forwarded to two peers and encrypted again *)
Definition forwarded : list N :=
  [0; 0; 1 (* received *); 0; 0; 1 (* data *); 1; 0; 2 (* generic-gmac *); 1; 0; 0; 1 (* authentic *); 0; 0; 1; 0;
   1 (* forward *); 1; 0; 0; 2 (* to two peers *); 0; 0; 0; 1; 2; 0; 0; 1; 0; 1; 2; 0; 0; 1]%N.
Example C42_nonvacuous : exists s,
  (do s <- init BUFFER_COUNT; run 2048 [(BReceive, forwarded); (BIface, [0; 0; 1; 0; 0; 5]%N); (BTask, [0; 1; 0; 0; 1; 4; 0; 0; 1]%N)] s) = Ok s /\
  all_free BUFFER_COUNT s.
Proof.
  eexists. split; [vm_compute; reflexivity|]. split; [reflexivity|]. eexists. split; [vm_compute; reflexivity|].
  split; [repeat constructor; cbn; intuition discriminate|].
  intros b. unfold BUFFER_COUNT. cbn [In]. lia.
Qed.

(** Two would not be enough. *)
Theorem C42_three_needed : exists events, (do s <- init 2; run 2048 events s) = Bug.
Proof. exists [(BReceive, forwarded)]. vm_compute. reflexivity. Qed.
Print Assumptions C42_three_needed.
