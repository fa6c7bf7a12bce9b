(** The parser does nothing undefined and comes to an end. *)
From Verif Require Import Base BufferModel MethodModel AddrModel LexModel LexSpec LexProofs4 HexSpec ConfigModel ConfigSpec ConfigProofs ConfigProofs2
  ConfigProofs3 ConfigProofs4 ConfigProofs5 ConfigProofs6 ConfigProofs7 ConfigProofs8 ConfigProofs9.
From Verif Require NameModel.
From Coq Require Import String.
Local Open Scope N_scope.

Definition keeps (g : nat) (peer : bool) (s : pst) : Prop :=
  wfc (ps_conf s) /\ ps_group s = g /\ (g < List.length (c_groups (ps_conf s)))%nat /\ (peer = true -> ps_peer s <> None).
Definition steady {A} (g : nat) (peer : bool) (m : M A) : Prop := forall s, keeps g peer s ->
  match m s with
  | Ok None | Fatal => True
  | Ok (Some (_, s')) => keeps g peer s' /\ (List.length (ps_toks s') <= List.length (ps_toks s))%nat
  | _ => False
  end.
Lemma steady_bnd {A B} g peer (m : M A) (f : A -> M B) : steady g peer m -> (forall a, steady g peer (f a)) -> steady g peer (bnd m f).
Proof.
  intros H1 H2 s K. specialize (H1 s K). unfold bnd. destruct (m s) as [[[a s1]|]| | |]; cbn [bind] in *; try exact H1.
  destruct H1 as [K1 L1]. specialize (H2 a s1 K1). destruct (f a s1) as [[[b s2]|]| | |]; try exact H2. destruct H2 as [K2 L2]. split; [exact K2|lia].
Qed.
Lemma steady_ret {A} g peer (a : A) : steady g peer (ret a).
Proof. intros s K. cbn. split; [exact K|lia]. Qed.
Lemma steady_fail {A} g peer : steady g peer (@fail A).
Proof. intros s K. exact Logic.I. Qed.
Lemma steady_fatal {A} g peer : steady g peer (@fatal A).
Proof. intros s K. exact Logic.I. Qed.
Lemma steady_next g peer : steady g peer next_tok.
Proof. intros [ts c g' p] K. cbn. destruct ts as [|t ts]; [exact Logic.I|]. destruct t; try exact Logic.I; (split; [exact K|cbn; lia]). Qed.
Lemma steady_peek g peer : steady g peer peek.
Proof. intros [ts c g' p] K. cbn. destruct ts as [|t ts]; [exact Logic.I|]. destruct t; try exact Logic.I; (split; [exact K|cbn; lia]). Qed.
Lemma steady_group g peer : steady g peer get_group.
Proof. intros s K. cbn. split; [exact K|lia]. Qed.
Lemma steady_get_peer g peer : steady g peer get_peer.
Proof. intros s K. cbn. split; [exact K|lia]. Qed.
Lemma steady_modify g peer f : (forall c, map gc_parent (c_groups (f c)) = map gc_parent (c_groups c)) -> steady g peer (modify f).
Proof.
  intros P s (W & G & L & Q). cbn. split; [|lia]. specialize (P (ps_conf s)).
  assert (LEN : List.length (c_groups (f (ps_conf s))) = List.length (c_groups (ps_conf s))) by (rewrite <- !(map_length gc_parent), P; reflexivity).
  assert (PA : forall i, parent_at (f (ps_conf s)) i = parent_at (ps_conf s) i).
  { intros i. unfold parent_at. rewrite <- !nth_error_map, P. reflexivity. }
  repeat split; cbn; try assumption; try lia.
  - rewrite PA. apply W.
  - intros i I. rewrite PA. apply W. lia.
Qed.
Lemma update_parents g f l : (forall x, gc_parent (f x) = gc_parent x) -> map gc_parent (update g f l) = map gc_parent l.
Proof. intros P. revert g. induction l as [|x l IH]; intros [|g]; cbn; rewrite ?P, ?IH; reflexivity. Qed.
Lemma steady_modify_peer g f : steady g true (modify_peer f).
Proof.
  intros s (W & G & L & Q). unfold modify_peer. destruct (ps_peer s) eqn:P; [|destruct (Q eq_refl eq_refl)]. cbn. repeat split; cbn; try assumption; try apply W; try lia.
  discriminate.
Qed.
Lemma steady_lift {A} g peer (r : res A) : (exists a, r = Ok a) -> steady g peer (lift r).
Proof. intros [a ->] s K. cbn. split; [exact K|lia]. Qed.

Ltac st :=
  repeat first
    [ lazymatch goal with |- steady _ _ (bnd _ _) => apply steady_bnd; [|intros ?] end
    | apply steady_ret | apply steady_fail | apply steady_fatal | apply steady_next | apply steady_peek | apply steady_group | apply steady_get_peer
    | apply steady_modify_peer
    | apply steady_modify; solve [intros ?; cbn; try reflexivity; try (rewrite update_parents; reflexivity)]
    | match goal with |- steady _ _ (match ?x with _ => _ end) => destruct x end ].

Lemma steady_key g peer k : steady g peer (key k). Proof. unfold key. st. Qed.
Lemma steady_chr g peer k : steady g peer (chr k). Proof. unfold chr. st. Qed.
Lemma steady_semi g peer : steady g peer semicolon. Proof. apply steady_chr. Qed.
Lemma steady_str g peer : steady g peer str. Proof. unfold str. st. Qed.
Lemma steady_uint g peer : steady g peer uint. Proof. unfold uint. st. Qed.
Lemma steady_opt g peer k : steady g peer (opt k). Proof. unfold opt. st. Qed.
Lemma steady_boolean g peer : steady g peer boolean. Proof. unfold boolean. st. Qed.
Lemma steady_autobool g peer : steady g peer autobool. Proof. unfold autobool. st. Qed.
Lemma steady_sync g peer : steady g peer sync. Proof. unfold sync. st. Qed.
Lemma steady_level g peer : steady g peer log_level. Proof. unfold log_level. st. Qed.
Ltac st2 := repeat first [apply steady_key | apply steady_chr | apply steady_semi | apply steady_str | apply steady_uint | apply steady_opt | apply steady_boolean
  | apply steady_autobool | apply steady_sync | apply steady_level | progress st].
Lemma steady_maybe_level g peer : steady g peer maybe_log_level. Proof. unfold maybe_log_level. st2. Qed.
Lemma steady_colon g peer : steady g peer colon_or_port. Proof. unfold colon_or_port. st. Qed.
Lemma steady_port g peer : steady g peer port. Proof. unfold port. apply steady_bnd; [apply steady_colon|]. intros _. st2. Qed.
Lemma steady_bind_port g peer : steady g peer bind_port. Proof. unfold bind_port. apply steady_bnd; [apply steady_colon|]. intros _. st2. Qed.
Ltac st3 := repeat first [apply steady_maybe_level | apply steady_port | apply steady_bind_port | progress st2].
Lemma steady_maybe_bind_port g peer : steady g peer maybe_bind_port. Proof. unfold maybe_bind_port. st3. Qed.
Lemma steady_maybe_iface g peer : steady g peer maybe_bind_interface. Proof. unfold maybe_bind_interface. st3. Qed.
Lemma steady_maybe_default g peer : steady g peer maybe_bind_default. Proof. unfold maybe_bind_default. st3. Qed.
Lemma steady_maybe_as g peer : steady g peer maybe_as. Proof. unfold maybe_as. st3. Qed.
Lemma add_bind_groups h dev a b d c : c_groups (add_bind h dev a b d c) = c_groups c.
Proof. rewrite add_bind_is. apply app_bind_groups. Qed.
Lemma steady_bind_address E g peer h dev a b d : steady g peer (bind_address E h dev a b d).
Proof. unfold bind_address. st; apply steady_modify; intros c; rewrite add_bind_groups; reflexivity. Qed.
Lemma steady_handle E g peer h p dev d : steady g peer (handle_bind_address E h p dev d).
Proof. unfold handle_bind_address. destruct d, p; apply steady_bind_address. Qed.
Lemma steady_bind E g peer : steady g peer (bind_stmt E).
Proof.
  unfold bind_stmt. repeat first [apply steady_maybe_bind_port | apply steady_maybe_iface | apply steady_maybe_default | apply steady_handle | progress st3].
Qed.
Lemma steady_log g peer : steady g peer log_stmt.
Proof.
  unfold log_stmt. st3.
  - apply steady_modify. intros c. destruct (c_syslog c); reflexivity.
  - apply steady_modify. intros c. destruct (c_stderr c), (c_syslog c); reflexivity.
Qed.
Lemma steady_drop g peer : steady g peer drop_stmt. Proof. unfold drop_stmt. st3. Qed.
Lemma steady_global E cwd g peer t : steady g peer (global_stmt E cwd t).
Proof. unfold global_stmt. repeat first [apply steady_bind | apply steady_log | apply steady_drop | progress st3]. Qed.
Lemma steady_group_command cwd g peer set : (forall o x, gc_parent (set o x) = gc_parent x) -> steady g peer (group_command cwd set).
Proof. intros P. unfold group_command. st3. apply steady_modify. intros c. cbn. apply update_parents. intros x. apply P. Qed.
Lemma steady_on E full cwd g peer : steady g peer (on_stmt E full cwd).
Proof. unfold on_stmt. repeat first [apply steady_group_command; reflexivity | progress st3]. Qed.
Lemma steady_remote E g : steady g true (peer_remote E).
Proof. unfold peer_remote, add_remote. st3. Qed.

(** * Files *)

Definition calm (rd : reader) : Prop := forall cwd f g p c, wfc c -> (g < List.length (c_groups c))%nat ->
  match rd cwd f g p c with
  | Ok None | Fatal => True
  | Ok (Some (c', p')) => wfc c' /\ (List.length (c_groups c) <= List.length (c_groups c'))%nat /\ (p <> None -> p' <> None)
  | _ => False
  end.
Lemma steady_call rd cwd f g peer p : calm rd -> steady g peer (call rd cwd f g p).
Proof.
  intros C s (W & G & L & Q). specialize (C cwd f g p (ps_conf s) W L). unfold call. destruct (rd cwd f g p (ps_conf s)) as [[[c' p']|]| | |]; cbn [bind]; try exact C.
  destruct C as (W' & L' & _). cbn. repeat split; cbn; try apply W'; try assumption; lia.
Qed.
(** The call that gives back a peer *)
Lemma call_peer {A} rd cwd f g peer p (k : option peer_conf -> M A) : calm rd -> (forall q, steady g peer (k (Some q))) -> 
  forall s, keeps g peer s -> p s <> None ->
  match (let! q <- call rd cwd f g (p s); k q) s with
  | Ok None | Fatal => True
  | Ok (Some (_, s')) => keeps g peer s' /\ (List.length (ps_toks s') <= List.length (ps_toks s))%nat
  | _ => False
  end.
Proof.
  intros C K s KS P. pose proof (steady_call rd cwd f g peer (p s) C s KS) as SC. unfold bnd. unfold call in *.
  destruct KS as (W & G & L & Q). specialize (C cwd f g (p s) (ps_conf s) W L).
  destruct (rd cwd f g (p s) (ps_conf s)) as [[[c' p']|]| | |]; cbn [bind] in *; try exact SC.
  destruct C as (_ & _ & NP). destruct p' as [q|]; [|destruct (NP P eq_refl)]. destruct SC as [KS' L1].
  specialize (K q _ KS'). match goal with |- match ?x with _ => _ end => destruct x as [[[b s2]|]| | |]; try exact K end.
Qed.
Lemma steady_set_peer g peer q : steady g peer (set_peer (Some q)).
Proof. intros s (W & G & L & Q). cbn. repeat split; cbn; try apply W; try assumption; try lia. discriminate. Qed.
Lemma steady_peer_stmt E rd cwd g t : calm rd -> steady g true (peer_stmt E rd cwd t).
Proof.
  intros C. unfold peer_stmt. destruct t as [| | | | | | | |k|]; try apply steady_fail. destruct k; try apply steady_fail.
  - st3.
  - apply steady_bnd; [apply steady_str|]. intros f [ts c g' p] K.
    pose proof (call_peer rd cwd f g true ps_peer (fun q => set_peer q ;; semicolon) C) as CP.
    pose proof K as (_ & G & _ & Q). cbn in G. subst g'.
    refine (CP _ (Pst ts c g p) K (Q eq_refl)).
    intros q. apply steady_bnd; [apply steady_set_peer|]. intros _. apply steady_semi.
  - st3.
  - apply steady_bnd; [apply steady_str|]. intros s. apply steady_bnd; [apply steady_lift; eexists; apply key_of_ok|]. intros k. st3.
  - st3.
  - apply steady_bnd; [apply steady_remote|]. intros _. apply steady_semi.
Qed.
Lemma steady_peer_block E rd cwd g : calm rd -> forall fuel s, (List.length (ps_toks s) < fuel)%nat -> keeps g true s ->
  match peer_conf_block E fuel rd cwd s with
  | Ok None | Fatal => True
  | Ok (Some (_, s')) => keeps g true s' /\ (List.length (ps_toks s') <= List.length (ps_toks s))%nat
  | _ => False
  end.
Proof.
  intros C. induction fuel as [|f IH]; intros [ts c g' p] L K; [lia|]. cbn [peer_conf_block ps_toks] in *. unfold bnd at 1, peek. cbn [ps_toks].
  destruct ts as [|t ts]; [exact Logic.I|].
  assert (X : match (if at_end t then ret tt else next_tok ;; peer_stmt E rd cwd t ;; peer_conf_block E f rd cwd) (Pst (t :: ts) c g' p) with
    | Ok None | Fatal => True
    | Ok (Some (_, s')) => keeps g true s' /\ (List.length (ps_toks s') <= S (List.length ts))%nat
    | _ => False
    end).
  { destruct (at_end t); [cbn; split; [exact K|lia]|]. unfold bnd at 1, next_tok. cbn [ps_toks ps_conf ps_group ps_peer].
    assert (Y : match (peer_stmt E rd cwd t ;; peer_conf_block E f rd cwd) (Pst ts c g' p) with
      | Ok None | Fatal => True
      | Ok (Some (_, s')) => keeps g true s' /\ (List.length (ps_toks s') <= S (List.length ts))%nat
      | _ => False
      end).
    { unfold bnd at 1. pose proof (steady_peer_stmt E rd cwd g t C (Pst ts c g' p) K) as S1.
      destruct (peer_stmt E rd cwd t (Pst ts c g' p)) as [[[u s1]|]| | |]; cbn [bind]; try exact S1. destruct S1 as [K1 L1]. cbn in L, L1.
      specialize (IH s1 ltac:(lia) K1). destruct (peer_conf_block E f rd cwd s1) as [[[u' s2]|]| | |]; try exact IH. destruct IH as [K2 L2]. split; [exact K2|lia]. }
    destruct t; exact Y || exact Logic.I. }
  destruct t; exact X || exact Logic.I.
Qed.

(** * Lists of statements *)

Definition ok_to {A} (Q : A -> pst -> Prop) (n : nat) (r : res (option (A * pst))) : Prop :=
  match r with
  | Ok None | Fatal => True
  | Ok (Some (a, s')) => Q a s' /\ (List.length (ps_toks s') <= n)%nat
  | _ => False
  end.
Lemma ok_bnd {A B} (Q1 : A -> pst -> Prop) (Q2 : B -> pst -> Prop) n (m : M A) (f : A -> M B) s : ok_to Q1 n (m s) ->
  (forall a s', Q1 a s' -> (List.length (ps_toks s') <= n)%nat -> yields m s a s' -> ok_to Q2 n (f a s')) -> ok_to Q2 n (bnd m f s).
Proof.
  intros H1 H2. unfold bnd. destruct (m s) as [[[a s1]|]| | |] eqn:E; cbn [bind ok_to] in *; try exact H1. destruct H1 as [K1 L1]. apply H2; assumption.
Qed.
Lemma ok_steady {A} g peer (m : M A) s n : steady g peer m -> keeps g peer s -> (List.length (ps_toks s) <= n)%nat -> ok_to (fun _ => keeps g peer) n (m s).
Proof.
  intros S K L. specialize (S s K). unfold ok_to. destruct (m s) as [[[a s1]|]| | |]; try exact S. destruct S as [K1 L1]. split; [exact K1|lia].
Qed.
Lemma ok_weaken {A} (Q1 Q2 : A -> pst -> Prop) n (r : res (option (A * pst))) : ok_to Q1 n r -> (forall a s, Q1 a s -> Q2 a s) -> ok_to Q2 n r.
Proof. intros H W. unfold ok_to in *. destruct r as [[[a s]|]| | |]; try exact H. destruct H as [H1 H2]. split; [apply W; exact H1|exact H2]. Qed.
Lemma keeps_weaken g s : keeps g true s -> keeps g false s.
Proof. intros (W & G & L & Q). repeat split; try apply W; try assumption. discriminate. Qed.

Lemma steady_peer_add g peer q : steady g peer (peer_add q).
Proof.
  intros s K. unfold peer_add. destruct (pc_key q); [|exact Logic.I]. destruct (existsb _ _); [exact Logic.I|].
  exact (steady_modify g peer (fun c => set_c_peers (c_peers c ++ [q]) c) ltac:(reflexivity) s K).
Qed.
Lemma steady_include E rd cwd g : calm rd -> steady g false (include_stmt E rd cwd).
Proof.
  intros C. unfold include_stmt. apply steady_bnd; [apply steady_next|]. intros t.
  destruct t as [| | |f| | | | |k|]; try apply steady_fail.
  - intros [ts c g' p] K. pose proof K as (_ & G & _ & _). cbn in G. subst g'.
    exact (steady_bnd g false _ _ (steady_call rd cwd f g false None C) (fun _ => steady_semi g false) (Pst ts c g p) K).
  - destruct k; try apply steady_fail.
    + apply steady_bnd; [apply steady_str|]. intros f. apply steady_bnd; [apply steady_maybe_as|]. intros name.
      intros [ts c g' p] K. pose proof K as (_ & G & _ & _). cbn in G. subst g'.
      refine (call_peer rd cwd f g false (fun _ => Some (new_peer name 0)) (fun p => (match p with None => fun _ => UB | Some p => peer_add p end) ;; semicolon) C _
        (Pst ts c g p) K _); [|discriminate].
      intros q. apply steady_bnd; [apply steady_peer_add|]. intros _. apply steady_semi.
    + unfold add_dir. st3.
Qed.

Definition total_block (E : env) (rd : reader) (cwd : bytes) (fuel : nat) : Prop :=
  forall g s full, full = Nat.eqb g 0 -> (List.length (ps_toks s) < fuel)%nat -> keeps g false s ->
  ok_to (fun _ => keeps g false) (List.length (ps_toks s)) (block E fuel full rd cwd s).

Lemma push_keeps (E : env) name g s : keeps g false s ->
  ok_to (fun _ s' => keeps (List.length (c_groups (ps_conf s))) false s' /\ parent_at (ps_conf s') (List.length (c_groups (ps_conf s))) = Some (Some g))
    (List.length (ps_toks s)) (push_group name s).
Proof.
  intros (W & G & L & _). unfold push_group. cbn [ok_to ps_toks]. split; [|lia]. rewrite G. split.
  - split; [exact (app_wfc E (EGroup g name) (ps_conf s) _ eq_refl W)|]. split; [reflexivity|]. split; [|discriminate].
    cbn. rewrite app_length. cbn. lia.
  - unfold parent_at. cbn [ps_conf c_groups set_c_groups]. rewrite nth_error_app2, Nat.sub_diag by lia. reflexivity.
Qed.

Lemma stmt_total E d rd cwd f g s full t : peer_reader E d rd -> group_reader E d rd -> calm rd -> total_block E rd cwd f -> full = Nat.eqb g 0 -> (List.length (ps_toks s) < f)%nat -> keeps g false s ->
  ok_to (fun _ => keeps g false) (List.length (ps_toks s)) (stmt_m E f full rd cwd t s).
Proof.
  intros PR GR C TB FU L K.
  assert (ST : forall m : M unit, steady g false m -> ok_to (fun _ => keeps g false) (List.length (ps_toks s)) (m s)).
  { intros m S. apply ok_steady; [exact S|exact K|lia]. }
  assert (GL : ok_to (fun _ => keeps g false) (List.length (ps_toks s)) ((if full then global_stmt E cwd t else fail) s)).
  { apply ST. destruct full; [apply steady_global|apply steady_fail]. }
  unfold stmt_m. destruct t as [| | | | | | | |k|]; try exact GL. destruct k; try exact GL; clear GL.
  - apply ST. apply steady_include. exact C.
  - apply ST. st3.
  - apply ST. apply steady_on.
  - eapply ok_bnd; [apply (ok_steady g false); [apply steady_next|exact K|apply le_n]|]. intros t s1 K1 L1 ?.
    destruct t as [| | |name| | | | |k|]; try exact Logic.I; [|destruct k; try exact Logic.I].
    + eapply ok_bnd; [apply (ok_steady g false); [apply steady_group|exact K1|exact L1]|]. intros g' s2 K2 L2 ?.
      eapply (ok_bnd (fun _ => keeps g true)).
      { cbn. split; [|exact L2]. destruct K2 as (W & G & L0 & _). repeat split; cbn; try apply W; try assumption. discriminate. }
      intros ? s3 K3 L3 ?. eapply ok_bnd; [apply (ok_steady g true); [apply steady_chr|exact K3|exact L3]|]. intros ? s4 K4 L4 ?.
      eapply (ok_bnd (fun _ => keeps g true)).
      { pose proof (steady_peer_block E rd cwd g C f s4 ltac:(lia) K4) as PB. unfold ok_to.
        destruct (peer_conf_block E f rd cwd s4) as [[[u s5]|]| | |]; try exact PB. destruct PB as [K5 L5]. split; [exact K5|lia]. }
      intros ? s5 K5 L5 ?. eapply ok_bnd; [apply (ok_steady g true); [apply steady_chr|exact K5|exact L5]|]. intros ? s6 K6 L6 ?.
      unfold peer_after. eapply (ok_bnd (fun p s => keeps g true s /\ p <> None)).
      { cbn. split; [split; [exact K6|apply K6; reflexivity]|exact L6]. }
      intros p s7 [K7 P7] L7 ?. destruct p as [q|]; [|congruence].
      eapply ok_weaken; [apply (ok_steady g true); [apply steady_peer_add|exact K7|exact L7]|]. intros ? s8. apply keeps_weaken.
    + eapply ok_bnd; [apply (ok_steady g false); [apply steady_str|exact K1|exact L1]|]. intros name s2 K2 L2 ?.
      set (n := List.length (c_groups (ps_conf s2))).
      eapply (ok_bnd (fun _ s' => keeps n false s' /\ parent_at (ps_conf s') n = Some (Some g))).
      { pose proof (push_keeps E name g s2 K2) as P. unfold ok_to in *. destruct (push_group name s2) as [[[u s3]|]| | |]; try exact P. destruct P as [P LP]. split; [exact P|lia]. }
      intros ? [ts3 c3 g3 p3] [K3 P3] L3 ?. eapply (ok_bnd (fun _ s' => keeps n false s' /\ parent_at (ps_conf s') n = Some (Some g))).
      { pose proof (ok_steady n false (chr 123) _ _ (steady_chr n false 123) K3 L3) as S. unfold ok_to in *.
        destruct (chr 123 (Pst ts3 c3 g3 p3)) as [[[u s4]|]| | |] eqn:Y; try exact S. destruct S as [K4 L4]. split; [|exact L4]. split; [exact K4|].
        apply chr_inv in Y. destruct Y as (r & _ & ->). exact P3. }
      intros ? [ts4 c4 g4 p4] [K4 P4] L4 ?. pose proof K4 as (W4 & G4 & LG4 & _). cbn in G4. subst g4. cbn in W4, LG4, P4.
      assert (NZ : false = Nat.eqb n 0).
      { symmetry. apply Nat.eqb_neq. destruct K2 as (W2 & _). pose proof (wfc_pos _ W2). unfold n. lia. }
      eapply (ok_bnd (fun _ s' => keeps n false s' /\ parent_at (ps_conf s') n = Some (Some g) /\ (g < List.length (c_groups (ps_conf s')))%nat)).
      { pose proof (TB n (Pst ts4 c4 n p4) false NZ ltac:(cbn in *; lia) K4) as S. unfold ok_to in *.
        destruct (block E f false rd cwd (Pst ts4 c4 n p4)) as [[[u s5]|]| | |] eqn:Y; try exact S. destruct S as [K5 L5]. split; [|cbn in *; lia]. split; [exact K5|].
        apply (block_sound E d rd cwd PR GR) in Y; [|exact W4|exact LG4|exact NZ]. destruct Y as (body & es & r & c5 & p5 & _ & _ & A & -> & _).
        destruct (app_all_groups E es c4 c5 A) as [LA PA]. cbn. split; [rewrite PA by exact LG4; exact P4|].
        destruct K2 as (_ & G2 & LG2 & _). unfold n in LG4. lia. }
      intros ? [ts5 c5 g5 p5] (K5 & P5 & G5) L5 ?. eapply (ok_bnd (fun _ s' => keeps n false s' /\ parent_at (ps_conf s') n = Some (Some g) /\ (g < List.length (c_groups (ps_conf s')))%nat)).
      { pose proof (ok_steady n false (chr 125) _ _ (steady_chr n false 125) K5 L5) as S. unfold ok_to in *.
        destruct (chr 125 (Pst ts5 c5 g5 p5)) as [[[u s6]|]| | |] eqn:Y; try exact S. destruct S as [K6 L6]. split; [|exact L6]. split; [exact K6|].
        apply chr_inv in Y. destruct Y as (r & _ & ->). split; assumption. }
      intros ? s6 (K6 & P6 & G6) L6 ?. destruct K6 as (W6 & E6 & LG6 & _). unfold pop_group. rewrite E6. unfold parent_at in P6.
      destruct (nth_error (c_groups (ps_conf s6)) n) as [x|]; [|discriminate]. cbn in P6. injection P6 as ->. cbn. split; [|exact L6].
      repeat split; cbn; try apply W6; try assumption. discriminate.
    + eapply ok_steady; [|exact K1|exact L1]. st3.
Qed.

Lemma block_total E d rd cwd : peer_reader E d rd -> group_reader E d rd -> calm rd -> forall fuel, total_block E rd cwd fuel.
Proof.
  intros PR GR C. induction fuel as [|f IH]; intros g s full FU L K; [lia|]. rewrite block_step.
  destruct s as [ts c g' p]. eapply ok_bnd; [apply (ok_steady g false); [apply steady_peek|exact K|apply le_n]|].
  intros t s1 K1 L1 Y. destruct ts as [|t0 ts]; [discriminate Y|]. apply peek_inv in Y. destruct Y as (r & E1 & -> & _). injection E1 as -> ->.
  destruct (at_end t); [split; [exact K1|exact L1]|].
  eapply (ok_bnd (fun _ s' => keeps g false s' /\ List.length (ps_toks s') = List.length r)).
  { pose proof (ok_steady g false next_tok _ _ (steady_next g false) K1 L1) as S. unfold ok_to in *.
    destruct (next_tok (Pst (t :: r) c g' p)) as [[[u s2]|]| | |] eqn:Y; try exact S. destruct S as [K2 L2]. split; [|exact L2]. split; [exact K2|].
    apply next_inv in Y. destruct Y as (r' & X & ->). injection X as _ <-. reflexivity. }
  intros ? s2 [K2 LE2] L2 ?. cbn in L. eapply ok_bnd.
  { pose proof (stmt_total E d rd cwd f g s2 full t PR GR C IH FU ltac:(lia) K2) as S. unfold ok_to in *.
    match goal with |- context [match ?x with _ => _ end] => destruct x as [[[u s3]|]| | |]; try exact S end. destruct S as [K3 L3]. split; [exact (conj K3 L3)|cbn; lia]. }
  intros ? s3 [K3 L3'] L3 ?. pose proof (IH g s3 full FU ltac:(lia) K3) as S. unfold ok_to in *.
  destruct (block E f full rd cwd s3) as [[[u s4]|]| | |]; try exact S. destruct S as [K4 L4]. split; [exact K4|cbn in *; lia].
Qed.

(** * Reading *)

Lemma read_toks_total E d rd cwd contents sched err g p c : sane E ->
  peer_reader E d rd -> group_reader E d rd -> calm rd -> wfc c -> (g < List.length (c_groups c))%nat ->
  match read_toks E rd cwd (contents, sched, err) g p c with
  | Ok None | Fatal => True
  | Ok (Some (c', p')) => wfc c' /\ (List.length (c_groups c) <= List.length (c_groups c'))%nat /\ (p <> None -> p' <> None)
  | _ => False
  end.
Proof.
  intros RS PR GR C W G. 
  destruct (read_toks E rd cwd (contents, sched, err) g p c) as [[[c' p']|]| | |] eqn:RT; try exact Logic.I.
  - destruct p as [q|].
    + apply (read_peer_is E d _ _ _ _ _ _ _ _ _ _ PR G) in RT. destruct RT as (? & ? & ? & _ & _ & _ & -> & ->). split; [exact W|]. split; [lia|discriminate].
    + apply (read_group_is E d _ _ _ _ _ _ _ _ _ PR GR W G) in RT. destruct RT as (? & ? & es & _ & _ & _ & A & ->).
      destruct (app_all_groups E es c c' A) as [L _]. split; [exact (app_all_wfc E es c c' A W)|]. split; [lia|congruence].
  - unfold read_toks in RT. destruct (lex_file_exact _ _ (proj1 RS) (proj2 RS) contents sched err) as (items & LX & _). rewrite LX in RT. cbn [bind] in RT.
    rewrite (has_parent_is c g W G) in RT. cbn [bind] in RT. rewrite negb_involutive in RT. destruct p as [q|].
    + match type of RT with context [peer_conf_block E ?n rd cwd ?s] => pose proof (steady_peer_block E rd cwd g C n s) as S; destruct (peer_conf_block E n rd cwd s) as [[[u s1]|]| | |] end;
        cbn [bind] in RT; try discriminate; try (destruct (ps_toks s1) as [|[] [|? ?]]; discriminate).
      apply S; [apply Nat.lt_succ_diag_r|]. repeat split; cbn; try apply W; try assumption. discriminate.
    + match type of RT with context [block E ?n ?fl rd cwd ?s] => pose proof (block_total E d rd cwd PR GR C n g s fl) as S; destruct (block E n fl rd cwd s) as [[[u s1]|]| | |] end;
        cbn [bind] in RT; try discriminate; try (destruct (ps_toks s1) as [|[] [|? ?]]; discriminate).
      apply S; [reflexivity|apply Nat.lt_succ_diag_r|]. repeat split; cbn; try apply W; try assumption. discriminate.
  - unfold read_toks in RT. destruct (lex_file_exact _ _ (proj1 RS) (proj2 RS) contents sched err) as (items & LX & _). rewrite LX in RT. cbn [bind] in RT.
    rewrite (has_parent_is c g W G) in RT. cbn [bind] in RT. rewrite negb_involutive in RT. destruct p as [q|].
    + match type of RT with context [peer_conf_block E ?n rd cwd ?s] => pose proof (steady_peer_block E rd cwd g C n s) as S; destruct (peer_conf_block E n rd cwd s) as [[[u s1]|]| | |] end;
        cbn [bind] in RT; try discriminate; try (destruct (ps_toks s1) as [|[] [|? ?]]; discriminate).
      apply S; [apply Nat.lt_succ_diag_r|]. repeat split; cbn; try apply W; try assumption. discriminate.
    + match type of RT with context [block E ?n ?fl rd cwd ?s] => pose proof (block_total E d rd cwd PR GR C n g s fl) as S; destruct (block E n fl rd cwd s) as [[[u s1]|]| | |] end;
        cbn [bind] in RT; try discriminate; try (destruct (ps_toks s1) as [|[] [|? ?]]; discriminate).
      apply S; [reflexivity|apply Nat.lt_succ_diag_r|]. repeat split; cbn; try apply W; try assumption. discriminate.
Qed.
Lemma read_file_calm E d : sane E -> calm (read_file E d).
Proof.
  intros RS. induction d as [|d IH]; intros cwd f g p c W G; [exact Logic.I|]. cbn [read_file].
  destruct (e_file E cwd f) as [[[contents sched] err]|]; [|exact Logic.I]. destruct (e_cd E cwd _) as [dir|]; [|exact Logic.I].
  destruct (readers E d) as [PR GR]. exact (read_toks_total E d _ _ _ _ _ _ _ _ RS PR GR IH W G).
Qed.
Lemma read_config_total E cwd name c : sane E -> wfc c ->
  match read_config E cwd name c with Ok _ | Fatal => True | _ => False end.
Proof.
  intros RS W. pose proof (wfc_pos c W) as G. unfold read_config. destruct name as [name|].
  - pose proof (read_file_calm E max_depth RS cwd name 0%nat None c W G) as S. destruct (read_file E max_depth cwd name 0%nat None c) as [[[c' p']|]| | |]; exact Logic.I || exact S.
  - destruct (e_stdin E) as [[contents sched] err]. destruct (readers E (max_depth - 1)) as [PR GR].
    pose proof (read_toks_total E (max_depth - 1) _ cwd contents sched err 0%nat None c RS PR GR (read_file_calm E (max_depth - 1) RS) W G) as S.
    destruct (read_toks _ _ _ _ _ _ _) as [[[c' p']|]| | |]; exact Logic.I || exact S.
Qed.
