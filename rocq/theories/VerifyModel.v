(** The limit of concurrent on-verify commands: verify.c, sem.h.  The main thread and the
    verifier threads are interleaved; each event is one of their steps.  Calls of
    [fastd_verify_peer] with an asynchronous command are numbered; the number is also
    used for the thread, its environment, its argument and its command's process. *)
From Verif Require Import Base.

Definition VERIFY_LIMIT : nat := 32. (* build.h.in L132 *)

(** The next thing a verifier thread does ([do_verify_thread], L57-71; [do_verify], L31-47;
    [fastd_shell_command_exec_sync], shell.c L129-157) *)
Inductive tphase : Set :=
| TFork                (* fork *)
| TWait                (* waitpid *)
| TFreeEnv (ok : bool) (* free the environment *)
| TEnqueue (ok : bool) (* send the result to the main thread *)
| TFreeArg             (* free the argument *)
| TPost.               (* increment the semaphore and end *)

(** The main thread is elsewhere, or in [fastd_verify_peer] after having decremented the
    semaphore (L101-111) *)
Inductive mphase : Set := MIdle | MCreate (id : nat).

Record vstate := mk_vstate {
  v_sem : nat;                      (* ctx.verify_limit *)
  v_main : mphase;
  v_threads : list (nat * tphase);
  v_procs : list nat;               (* running commands *)
  v_envs : list nat;                (* allocated environments *)
  v_args : list nat;                (* allocated arguments *)
  v_results : list (nat * bool);    (* results sent *)
  v_next : nat;
  v_bad : bool                      (* something was used after having been freed, or freed twice *)
}.

Definition vinit : vstate := mk_vstate VERIFY_LIMIT MIdle [] [] [] [] [] 0 false.

Inductive vevent : Set :=
| ECall                       (* fastd_verify_peer up to the semaphore, L80-100 *)
| ECreated (ok : bool)        (* pthread_create and what follows, L112-125 *)
| EFork (id : nat) (ok : bool)
| EWait (id : nat) (st : option bool) (* waitpid: error, or whether the status was good *)
| EFreeEnv (id : nat)
| EEnqueue (id : nat) (ok : bool)
| EFreeArg (id : nat)
| EPost (id : nat)
| EExit (id : nat).           (* a command that nobody waits for ends *)

Definition mem (x : nat) (l : list nat) : bool := existsb (Nat.eqb x) l.
Definition del (x : nat) (l : list nat) : list nat := filter (fun y => negb (Nat.eqb y x)) l.
Definition phase (id : nat) (s : vstate) : option tphase :=
  option_map snd (find (fun t => Nat.eqb (fst t) id) (v_threads s)).
Definition set_phase (id : nat) (p : tphase) (l : list (nat * tphase)) : list (nat * tphase) :=
  map (fun t => if Nat.eqb (fst t) id then (id, p) else t) l.
Definition end_thread (id : nat) (l : list (nat * tphase)) : list (nat * tphase) :=
  filter (fun t => negb (Nat.eqb (fst t) id)) l.

(** One step; None if the event is not possible *)
Definition vstep (e : vevent) (s : vstate) : option vstate :=
  match e with
  | ECall =>
      match v_main s with
      | MIdle =>
          let id := v_next s in
          match v_sem s with
          | O => Some (mk_vstate 0 MIdle (v_threads s) (v_procs s) (id :: v_envs s) (v_args s) (v_results s) (S id) (v_bad s))
          | S n => Some (mk_vstate n (MCreate id) (v_threads s) (v_procs s) (id :: v_envs s) (id :: v_args s) (v_results s) (S id) (v_bad s))
          end
      | MCreate _ => None
      end
  | ECreated ok =>
      match v_main s with
      | MIdle => None
      | MCreate id =>
          if ok then
            Some (mk_vstate (v_sem s) MIdle (v_threads s ++ [(id, TFork)]) (v_procs s) (v_envs s) (v_args s) (v_results s) (v_next s) (v_bad s))
          else
            Some (mk_vstate (S (v_sem s)) MIdle (v_threads s) (v_procs s) (del id (v_envs s)) (del id (v_args s)) (v_results s) (v_next s)
                    (v_bad s || negb (mem id (v_envs s)) || negb (mem id (v_args s))))
      end
  | EFork id ok =>
      match phase id s with
      | Some TFork =>
          Some (mk_vstate (v_sem s) (v_main s) (set_phase id (if ok then TWait else TFreeEnv false) (v_threads s))
                  (if ok then id :: v_procs s else v_procs s) (v_envs s) (v_args s) (v_results s) (v_next s)
                  (v_bad s || negb (mem id (v_envs s)) || negb (mem id (v_args s))))
      | _ => None
      end
  | EWait id st =>
      match phase id s with
      | Some TWait =>
          Some (mk_vstate (v_sem s) (v_main s) (set_phase id (TFreeEnv (match st with Some b => b | None => false end)) (v_threads s))
                  (match st with Some _ => del id (v_procs s) | None => v_procs s end) (v_envs s) (v_args s) (v_results s) (v_next s) (v_bad s))
      | _ => None
      end
  | EFreeEnv id =>
      match phase id s with
      | Some (TFreeEnv b) =>
          Some (mk_vstate (v_sem s) (v_main s) (set_phase id (TEnqueue b) (v_threads s)) (v_procs s) (del id (v_envs s)) (v_args s) (v_results s) (v_next s)
                  (v_bad s || negb (mem id (v_envs s)) || negb (mem id (v_args s))))
      | _ => None
      end
  | EEnqueue id ok =>
      match phase id s with
      | Some (TEnqueue b) =>
          Some (mk_vstate (v_sem s) (v_main s) (set_phase id TFreeArg (v_threads s)) (v_procs s) (v_envs s) (v_args s)
                  (if ok then v_results s ++ [(id, b)] else v_results s) (v_next s)
                  (v_bad s || negb (mem id (v_args s))))
      | _ => None
      end
  | EFreeArg id =>
      match phase id s with
      | Some TFreeArg =>
          Some (mk_vstate (v_sem s) (v_main s) (set_phase id TPost (v_threads s)) (v_procs s) (v_envs s) (del id (v_args s)) (v_results s) (v_next s)
                  (v_bad s || negb (mem id (v_args s))))
      | _ => None
      end
  | EPost id =>
      match phase id s with
      | Some TPost =>
          Some (mk_vstate (S (v_sem s)) (v_main s) (end_thread id (v_threads s)) (v_procs s) (v_envs s) (v_args s) (v_results s) (v_next s) (v_bad s))
      | _ => None
      end
  | EExit id =>
      match phase id s with
      | Some TWait => None
      | _ => if mem id (v_procs s) then
               Some (mk_vstate (v_sem s) (v_main s) (v_threads s) (del id (v_procs s)) (v_envs s) (v_args s) (v_results s) (v_next s) (v_bad s))
             else None
      end
  end.

Fixpoint vrun (l : list vevent) (s : vstate) : option vstate :=
  match l with
  | [] => Some s
  | e :: r => match vstep e s with Some s => vrun r s | None => None end
  end.
