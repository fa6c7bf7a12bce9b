(** C46: the tokens of a configuration file depend on its contents only.
    [pton4] and [pton6] stand for [inet_pton], which rejects texts longer than any address. *)
From Verif Require Import Base BufferModel LexModel LexSpec LexProofs4 LexProofs6.
From Coq Require Import String.
Local Open Scope nat_scope.
Notation length := List.length.

Definition pton_rejects_long (pton4 pton6 : bytes -> option bytes) : Prop :=
  (forall a : bytes, 15 < length a -> pton4 a = None) /\ (forall a : bytes, 45 < length a -> pton6 a = None).

(** However the reads split the contents, the tokens, their values and locations are those of the specification, which
    looks at the whole contents; no byte outside the buffer is read *)
Theorem C46_exact : forall pton4 pton6, pton_rejects_long pton4 pton6 -> forall contents sched fail,
  exists r, lex_file pton4 pton6 contents sched fail = Ok r /\ map (observe fail) r = map (observe fail) (spec_file pton4 pton6 fail contents).
Proof. intros pton4 pton6 [H4 H6]. exact (lex_file_exact pton4 pton6 H4 H6). Qed.

Theorem C46_chunking : forall pton4 pton6, pton_rejects_long pton4 pton6 -> forall contents sched sched' fail,
  exists r r', lex_file pton4 pton6 contents sched fail = Ok r /\ lex_file pton4 pton6 contents sched' fail = Ok r' /\
    map (observe fail) r = map (observe fail) r'.
Proof. intros pton4 pton6 [H4 H6]. exact (file_chunking pton4 pton6 H4 H6). Qed.

(** A file in the grammar gives its tokens, and any other one ends in an error *)
Theorem C46_wellformed : forall pton4 pton6, pton_rejects_long pton4 pton6 -> forall contents sched l,
  lexes pton4 pton6 false contents l -> exists r, lex_file pton4 pton6 contents sched false = Ok r /\ tokens r = l ++ [LEof].
Proof. intros pton4 pton6 [H4 H6]. exact (file_wellformed pton4 pton6 H4 H6). Qed.
Theorem C46_malformed : forall pton4 pton6, pton_rejects_long pton4 pton6 -> forall contents sched,
  no_long_number contents -> (forall l, ~ lexes pton4 pton6 false contents l) ->
  exists r l e, lex_file pton4 pton6 contents sched false = Ok r /\ tokens r = l ++ [LError e].
Proof. intros pton4 pton6 [H4 H6]. exact (file_malformed pton4 pton6 H4 H6). Qed.
Theorem C46_read_error : forall pton4 pton6, pton_rejects_long pton4 pton6 -> forall contents sched,
  no_long_number contents -> exists r l e, lex_file pton4 pton6 contents sched true = Ok r /\ tokens r = l ++ [LError e].
Proof. intros pton4 pton6 [H4 H6]. exact (file_read_error pton4 pton6 H4 H6). Qed.

(** Without the condition on long numbers this is wrong: a number that fills the buffer of 1024 bytes ends the tokens,
    and whatever follows is ignored without an error, be it malformed or unreadable *)
Theorem C46_long_number_refuted : forall pton4 pton6, pton_rejects_long pton4 pton6 ->
  (forall rest sched fail, exists r, lex_file pton4 pton6 (repeat 48%N bufsize ++ rest) sched fail = Ok r /\ tokens r = [LUint 0; LEof]) /\
  (forall l, ~ lexes pton4 pton6 false (repeat 48%N bufsize ++ [34%N]) l).
Proof. intros pton4 pton6 [H4 H6]. split; [exact (long_number pton4 pton6 H4 H6) | exact (long_number_malformed pton4 pton6 H4 H6)]. Qed.

Print Assumptions C46_exact.
Print Assumptions C46_chunking.
Print Assumptions C46_wellformed.
Print Assumptions C46_malformed.
Print Assumptions C46_read_error.
Print Assumptions C46_long_number_refuted.

(** Stand-ins for [inet_pton] that keep the text *)
Definition ex_pton4 (a : bytes) : option bytes := if Nat.leb (length a) 15 then Some a else None.
Definition ex_pton6 (a : bytes) : option bytes := if Nat.leb (length a) 45 then Some a else None.
Example C46_pton_ex : pton_rejects_long ex_pton4 ex_pton6.
Proof. split; intros a H; unfold ex_pton4, ex_pton6; [destruct (Nat.leb_spec (length a) 15) | destruct (Nat.leb_spec (length a) 45)]; (reflexivity || lia). Qed.

Local Open Scope string_scope.
Definition ex_text : bytes := w "peer ""a\""b"" { remote [fe80::1%eth\]0]:0x1f; /* x **/ no 1.2.3.4; }// end".
Definition ex_items : res (list item) := lex_file ex_pton4 ex_pton6 ex_text [1; 2; 3; 1; 1; 1; 1; 7; 1] false.
Example C46_exact_ex : match ex_items with Ok r => tokens r | _ => [] end =
  [LKeyword (w "peer"); LStr (w "a""b"); LChar 123; LKeyword (w "remote"); LAddr6Scoped (w "fe80::1") (w "eth]0"); LChar 58; LUint 31;
   LChar 59; LKeyword (w "no"); LAddr4 (w "1.2.3.4"); LChar 59; LChar 125; LEof]%N.
Proof. vm_compute. reflexivity. Qed.

(** A correct file and malformed ones *)
Example C46_wellformed_ex : lexes ex_pton4 ex_pton6 false (w "mtu 1500;") [LKeyword (w "mtu"); LUint 1500; LChar 59%N].
Proof.
  apply (X_keyword _ _ 109%N (w "tu") (w " 1500;")); try reflexivity; [vm_compute; repeat first [left; reflexivity | right]|].
  apply X_space; [reflexivity|]. apply (X_number _ _ 49%N (w "500") 1500 (w ";")); try reflexivity; [intros [_ H]; discriminate H | vm_compute; lia |].
  apply X_punct; [reflexivity|]. apply X_end.
Qed.
Lemma short_number (s : bytes) : length s < bufsize -> no_long_number s.
Proof. intros H a t b -> _. rewrite !app_length in H. lia. Qed.
Example C46_malformed_ex : no_long_number (w "mtu ""12") /\ (forall l, ~ lexes ex_pton4 ex_pton6 false (w "mtu ""12") l).
Proof.
  split; [apply short_number; vm_compute; lia|]. intros l H. destruct (file_wellformed ex_pton4 ex_pton6 (proj1 C46_pton_ex) (proj2 C46_pton_ex) _ [] l H) as (r & E & T).
  vm_compute in E. injection E as <-. cbn in T. destruct l as [|x [|y l]]; [discriminate | discriminate T | destruct l; discriminate].
Qed.
