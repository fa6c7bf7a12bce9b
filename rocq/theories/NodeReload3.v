(** Reloading: dropped peers are down *)
From Verif Require Import Base BufferModel NonceModel MethodModel HandshakeModel EthSpec NodeModel NodeSteps NodeWf NodeInv NodeFun NodeFun4
  NodeSpec NodeProofs NodeProofs3 NodeReloadSpec NodeReload NodeReload2.
Local Open Scope Z_scope.

Lemma reloads_reachable : forall P static defs n n', reloads P static defs n n' -> reachable P n'.
Proof.
  intros P static defs n n' (now & orc & dirs & evs & dt & He & Hh).
  eapply later_reachable; [exists now, orc, static, dirs, evs; exact He | eapply handles_later; exact Hh].
Qed.
Lemma not_up : forall P n pid, reachable P n -> (forall p, In p (n_peers n) -> p_id p = pid -> is_established p = false) -> up (n_out n) pid = false.
Proof.
  intros P n pid R H. destruct (up (n_out n) pid) eqn:E; [|reflexivity]. apply (proj2 (reachable_uinv P n R) pid) in E.
  destruct E as (p & Hp & He). apply find_id_in in Hp. rewrite (H p (proj1 Hp) (proj2 Hp)) in He. discriminate.
Qed.
Lemma dropped_down : forall P static defs n n' p, reloads P static defs n n' -> In p (n_peers n) -> p_conf p <> CDynamic ->
  (p_key p = c_own P \/ forall c, of_key (p_key p) (static ++ defs) = [c] -> ~ agrees p c) ->
  (forall p', In p' (n_peers n') -> p_id p' = p_id p -> p_conf p' = CDisabled /\ is_established p' = false) /\
  up (n_out n') (p_id p) = false.
Proof.
  intros P static defs n n' p HR Hin Hc Hno. pose proof (dropped_peer P static defs n n' p HR Hin Hc Hno) as D. split; [exact D|].
  eapply not_up; [eapply reloads_reachable; exact HR|]. intros q Hq Ei. apply (D q Hq Ei).
Qed.
Lemma dynamic_down : forall P static defs n n' p, reloads P static defs n n' -> dynamic n p -> of_key (p_key p) defs <> [] ->
  (forall p', In p' (n_peers n') -> p_id p' <> p_id p) /\ up (n_out n') (p_id p) = false.
Proof.
  intros P static defs n n' p HR Hd Hne. pose proof (dynamic_replaced P static defs n n' p HR Hd Hne) as D. split; [exact D|].
  eapply not_up; [eapply reloads_reachable; exact HR|]. intros q Hq Ei. contradiction (D q Hq Ei).
Qed.
Lemma options_of : forall P static defs n n' p c, reloads P static defs n n' -> configured n' p -> of_key (p_key p) (static ++ defs) = [c] ->
  p_group p = pc_group c /\ configured_remotes p = pc_remotes c /\ p_floating p = pc_floating c /\ p_ifname p = pc_ifname c.
Proof.
  intros P static defs n n' p c HR Hc E. destruct (configured_to P _ _ _ _ _ HR Hc) as (_ & c' & E' & (_ & Ag)). rewrite E in E'. injection E' as <-. exact Ag.
Qed.
