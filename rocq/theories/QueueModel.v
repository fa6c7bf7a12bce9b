(** The timer queue: pqueue.c (pairing heap with back links) and task.c.
    Tasks are objects with an id; a pointer to a task's queue entry is its id.  Memory holds the entries of all
    allocated tasks; accessing another one, or NULL, is undefined behaviour. *)
From Verif Require Import Base BufferModel.

(** Places that hold a pointer to an entry: [ctx.task_queue], [next] or [children] of an entry *)
Inductive loc : Type := LRoot | LNext (i : N) | LChildren (i : N).
(** [struct fastd_pqueue], pqueue.h L19-26; values are 64 bit times *)
Record cell := mk_cell { c_pprev : option loc; c_next : option N; c_children : option N; c_value : Z }.
Record heap := mk_heap { h_mem : list (N * cell); h_root : option N }.

Definition getc (h : heap) (i : N) : option cell :=
  match find (fun x => N.eqb (fst x) i) (h_mem h) with Some x => Some (snd x) | None => None end.
Definition setc (h : heap) (i : N) (c : cell) : heap :=
  mk_heap (map (fun x => if N.eqb (fst x) i then (i, c) else x) (h_mem h)) (h_root h).

Definition read (h : heap) (i : N) : res cell := match getc h i with Some c => Ok c | None => UB end.
Definition set_pprev (h : heap) (i : N) (l : option loc) : res heap :=
  do c <- read h i; Ok (setc h i (mk_cell l (c_next c) (c_children c) (c_value c))).
Definition set_next (h : heap) (i : N) (n : option N) : res heap :=
  do c <- read h i; Ok (setc h i (mk_cell (c_pprev c) n (c_children c) (c_value c))).
Definition set_children (h : heap) (i : N) (n : option N) : res heap :=
  do c <- read h i; Ok (setc h i (mk_cell (c_pprev c) (c_next c) n (c_value c))).
Definition set_value (h : heap) (i : N) (v : Z) : res heap :=
  do c <- read h i; Ok (setc h i (mk_cell (c_pprev c) (c_next c) (c_children c) v)).
Definition load (h : heap) (l : loc) : res (option N) :=
  match l with
  | LRoot => Ok (h_root h)
  | LNext i => do c <- read h i; Ok (c_next c)
  | LChildren i => do c <- read h i; Ok (c_children c)
  end.
Definition store (h : heap) (l : loc) (p : option N) : res heap :=
  match l with
  | LRoot => Ok (mk_heap (h_mem h) p)
  | LNext i => set_next h i p
  | LChildren i => set_children h i p
  end.

Definition is_some {A} (o : option A) : bool := match o with Some _ => true | None => false end.

(** [pqueue_link], pqueue.c L22-32 *)
Definition pqueue_link (h : heap) (pqueue : loc) (elem : N) : res heap :=
  do c <- read h elem;
  if is_some (c_next c) then Bug
  else
    do h <- set_pprev h elem (Some pqueue);
    do n <- load h pqueue;
    do h <- set_next h elem n;
    do h <- (match n with Some n => set_pprev h n (Some (LNext elem)) | None => Ok h end);
    store h pqueue (Some elem).

(** [pqueue_unlink], L35-41 *)
Definition pqueue_unlink (h : heap) (elem : N) : res heap :=
  do c <- read h elem;
  match c_pprev c with
  | None => UB
  | Some pprev =>
      do h <- store h pprev (c_next c);
      do c <- read h elem;
      do h <- (match c_next c with Some n => set_pprev h n (c_pprev c) | None => Ok h end);
      set_next h elem None
  end.

(** [pqueue_merge], L49-75 *)
Definition pqueue_merge (h : heap) (pqueue1 pqueue2 : option N) : res (heap * N) :=
  match pqueue1 with
  | None => Bug
  | Some p1 =>
      do c1 <- read h p1;
      if is_some (c_next c1) then Bug
      else
        match pqueue2 with
        | None => Ok (h, p1)
        | Some p2 =>
            do c2 <- read h p2;
            if is_some (c_next c2) then Bug
            else
              let (lo, hi) := if (c_value c1 <? c_value c2)%Z then (p1, p2) else (p2, p1) in
              do h <- pqueue_link h (LChildren lo) hi;
              Ok (h, lo)
        end
  end.

(** [pqueue_merge_pairs], L78-95.  C leaves open which argument of the last call is evaluated first: [right].
    The recursion visits siblings; [fuel] is at least their number. *)
Fixpoint pqueue_merge_pairs (right : bool) (fuel : nat) (h : heap) (pqueue0 : option N) : res (heap * option N) :=
  match pqueue0 with
  | None => Ok (h, None)
  | Some p0 =>
      match fuel with
      | O => UB
      | S fuel =>
          do c0 <- read h p0;
          if negb (is_some (c_pprev c0)) then Bug
          else
            match c_next c0 with
            | None => Ok (h, Some p0)
            | Some p1 =>
                do c1 <- read h p1;
                let pqueue2 := c_next c1 in
                do h <- set_next h p1 None;
                do h <- set_next h p0 None;
                if right then
                  do r <- pqueue_merge_pairs right fuel h pqueue2;
                  do l <- pqueue_merge (fst r) (Some p0) (Some p1);
                  do m <- pqueue_merge (fst l) (Some (snd l)) (snd r);
                  Ok (fst m, Some (snd m))
                else
                  do l <- pqueue_merge h (Some p0) (Some p1);
                  do r <- pqueue_merge_pairs right fuel (fst l) pqueue2;
                  do m <- pqueue_merge (fst r) (Some (snd l)) (snd r);
                  Ok (fst m, Some (snd m))
            end
      end
  end.

(** [fastd_pqueue_insert], L98-104, into [ctx.task_queue] *)
Definition pqueue_insert (h : heap) (elem : N) : res heap :=
  do c <- read h elem;
  if (is_some (c_pprev c) || is_some (c_next c) || is_some (c_children c))%bool then Bug
  else
    do r <- pqueue_merge h (Some elem) (h_root h);
    let h := mk_heap (h_mem (fst r)) (Some (snd r)) in
    set_pprev h (snd r) (Some LRoot).

(** [fastd_pqueue_remove], L107-126 *)
Definition pqueue_remove (right : bool) (h : heap) (elem : N) : res heap :=
  do c <- read h elem;
  match c_pprev c with
  | None => if (is_some (c_children c) || is_some (c_next c))%bool then Bug else Ok h
  | Some pprev =>
      do h <- pqueue_unlink h elem;
      do c <- read h elem;
      do r <- pqueue_merge_pairs right (length (h_mem h)) h (c_children c);
      do h <- (match snd r with Some m => pqueue_link (fst r) pprev m | None => Ok (fst r) end);
      do h <- set_pprev h elem None;
      set_children h elem None
  end.

(** ** Tasks, task.c and task.h *)
Definition TIMEOUT_INV : Z := 9223372036854775807%Z. (* FASTD_TIMEOUT_INV *)
Definition task_reschedule (h : heap) (i : N) (timeout : Z) : res heap :=
  do h <- set_value h i timeout; pqueue_insert h i.
Definition task_scheduled (h : heap) (i : N) : res bool := do c <- read h i; Ok (is_some (c_pprev c)).
Definition task_timeout (h : heap) (i : N) : res Z :=
  do c <- read h i; Ok (if is_some (c_pprev c) then c_value c else TIMEOUT_INV).
Definition task_queue_timeout (h : heap) : res Z :=
  match h_root h with
  | None => Ok TIMEOUT_INV
  | Some i => do c <- read h i; Ok (c_value c)
  end.

(** What the rest of the program does with tasks *)
Inductive task_op : Type :=
| ONew (i : N)                     (* a task is allocated (zeroed); the id is not in use *)
| OSchedule (i : N) (timeout : Z)  (* fastd_task_schedule *)
| OAgain (i : N) (delay : Z)       (* fastd_task_reschedule_relative *)
| OUnschedule (i : N)              (* fastd_task_unschedule *)
| OEarlier (i : N) (timeout : Z)   (* schedule_peer_task, peer.c L226-246: only ever brings a task forward *)
| OFree (i : N).                   (* reset_peer and the release of the peer *)

Definition task_op_run (right : bool) (o : task_op) (h : heap) : res heap :=
  match o with
  | ONew i =>
      match getc h i with
      | Some _ => UB
      | None => Ok (mk_heap ((i, mk_cell None None None 0) :: h_mem h) (h_root h))
      end
  | OSchedule i t => task_reschedule h i t
  | OAgain i d => do c <- read h i; task_reschedule h i (c_value c + d)
  | OUnschedule i => pqueue_remove right h i
  | OEarlier i t =>
      if (t =? TIMEOUT_INV)%Z then pqueue_remove right h i
      else
        do u <- task_timeout h i;
        if (t <? u)%Z then do h <- pqueue_remove right h i; task_reschedule h i t else Ok h
  | OFree i =>
      do h <- pqueue_remove right h i;
      Ok (mk_heap (filter (fun x => negb (N.eqb (fst x) i)) (h_mem h)) (h_root h))
  end.
Fixpoint task_ops_run (right : bool) (l : list task_op) (h : heap) : res heap :=
  match l with
  | [] => Ok h
  | o :: l => do h <- task_op_run right o h; task_ops_run right l h
  end.

(** [fastd_task_handle] and [handle_task], task.c L27-51.  What the handler of the n-th task does with tasks is
    arbitrary: [handler n i].  The result is None if more than [fuel] tasks are run; else the tasks run and their times. *)
Fixpoint task_handle (right : bool) (fuel : nat) (now : Z) (handler : nat -> N -> list task_op) (n : nat) (h : heap) : res (option (heap * list (N * Z))) :=
  match h_root h with
  | None => Ok (Some (h, []))
  | Some i =>
      do c <- read h i;
      if negb (timed_out now (c_value c)) then Ok (Some (h, []))
      else
        match fuel with
        | O => Ok None
        | S fuel =>
            do h <- pqueue_remove right h i;
            do h <- task_ops_run right (handler n i) h;
            do r <- task_handle right fuel now handler (S n) h;
            match r with
            | None => Ok None
            | Some (h, log) => Ok (Some (h, (i, c_value c) :: log))
            end
        end
  end.
Definition heap_init : heap := mk_heap [] None.
