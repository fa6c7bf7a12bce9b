(** The statements without files: what is read is the text of a statement, and what is done is what it stands for. *)
From Verif Require Import Base BufferModel MethodModel AddrModel LexModel LexSpec HexSpec ConfigModel ConfigSpec ConfigProofs.
From Coq Require Import String.
Local Open Scope N_scope.

Ltac dead := solve [match goal with H : yields _ _ _ _ |- _ => discriminate H end].
Ltac prim :=
  match goal with
  | H : yields (key _) (Pst _ _ _ _) _ _ |- _ => let E := fresh "E" in apply key_inv in H; destruct H as (? & E & ->); try subst
  | H : yields (chr _) (Pst _ _ _ _) _ _ |- _ => let E := fresh "E" in apply chr_inv in H; destruct H as (? & E & ->); try subst
  | H : yields semicolon _ _ _ |- _ => unfold semicolon in H
  | H : yields str (Pst _ _ _ _) _ _ |- _ => let E := fresh "E" in apply str_inv in H; destruct H as (? & E & ->); try subst
  | H : yields uint (Pst _ _ _ _) _ _ |- _ => let E := fresh "E" in apply uint_inv in H; destruct H as (? & E & ->); try subst
  | H : yields (modify _) (Pst _ _ _ _) _ _ |- _ => apply modify_inv in H; try subst
  | H : yields get_group (Pst _ _ _ _) _ _ |- _ => apply get_group_inv in H; destruct H as [-> ->]
  | H : yields get_peer (Pst _ _ _ _) _ _ |- _ => apply get_peer_inv in H; destruct H as [-> ->]
  | H : yields (set_peer _) (Pst _ _ _ _) _ _ |- _ => apply set_peer_inv in H; try subst
  | H : yields (ret _) _ _ _ |- _ => apply ret_inv in H; destruct H as [-> ->]
  | H : yields (modify_peer _) (Pst _ _ _ _) _ _ |- _ => let E := fresh "E" in apply modify_peer_inv in H; destruct H as (? & E & ->); first [injection E as <- | subst]
  end.
Ltac steps H := repeat (first [step H; repeat prim | progress prim]).

Lemma boolean_inv ts c g p b s' : yields boolean (Pst ts c g p) b s' -> exists r, ts = tok_of (yesno b) :: r /\ s' = Pst r c g p.
Proof.
  unfold boolean. intros H. next H. destruct a; try dead. destruct k; try dead; prim; eexists; (split; [|reflexivity]);
    cbn [yesno]; autorewrite with tk; reflexivity.
Qed.
Lemma autobool_inv ts c g p u s' : yields autobool (Pst ts c g p) u s' ->
  exists b r, ts = tok_of (match b with None => K "auto" | Some b => yesno b end) :: r /\ s' = Pst r c g p.
Proof.
  unfold autobool. intros H. next H. destruct a; try dead. destruct k; try dead; prim;
    [exists None|exists (Some false)|exists (Some true)]; eexists; (split; [|reflexivity]); cbn [yesno]; autorewrite with tk; reflexivity.
Qed.
Lemma sync_inv ts c g p b s' : yields sync (Pst ts c g p) b s' ->
  exists sy r, ts = map tok_of (sync_text sy) ++ r /\ b = is_sync sy /\ s' = Pst r c g p.
Proof.
  unfold sync. intros H. step H. apply peek_inv in H0. destruct H0 as (r & -> & -> & _).
  destruct a; try (prim; exists None; eexists; split; [|split; reflexivity]; reflexivity).
  destruct k; try (prim; exists None; eexists; split; [|split; reflexivity]; reflexivity);
    next H; prim; [exists (Some false)|exists (Some true)]; eexists; (split; [|split; reflexivity]); cbn [sync_text map app]; autorewrite with tk; reflexivity.
Qed.
Lemma log_level_inv ts c g p l s' : yields log_level (Pst ts c g p) l s' -> exists r, ts = tok_of (level_text l) :: r /\ s' = Pst r c g p.
Proof.
  unfold log_level. intros H. next H. destruct a; try dead.
  destruct k; try dead; prim; eexists; (split; [|reflexivity]); unfold level_text; autorewrite with tk; reflexivity.
Qed.
Definition or_default (l : option level) : level := match l with Some l => l | None => level_default end.
Lemma maybe_log_level_inv ts c g p l s' : yields maybe_log_level (Pst ts c g p) l s' ->
  exists ol r, ts = map tok_of (maybe_level_text ol) ++ r /\ l = or_default ol /\ s' = Pst r c g p.
Proof.
  unfold maybe_log_level. intros H. step H. apply opt_inv in H0. destruct a.
  - destruct H0 as (r & -> & ->). apply log_level_inv in H. destruct H as (r' & -> & ->).
    exists (Some l), r'. split; [|split; reflexivity]. cbn [maybe_level_text map app]. autorewrite with tk. reflexivity.
  - subst s. prim. exists None, ts. split; [|split]; reflexivity.
Qed.
Lemma colon_inv ts c g p u s' : yields colon_or_port (Pst ts c g p) u s' ->
  exists x r, ts = tok_of (match x with Colon => LChar 58 | Word => K "port" end) :: r /\ s' = Pst r c g p.
Proof.
  unfold colon_or_port. intros H. next H. destruct a; try dead.
  - destruct (N.eqb_spec c0 58) as [->|]; [|dead]. prim. exists Colon. eexists. split; reflexivity.
  - destruct k; try dead. prim. exists Word. eexists. split; [|reflexivity]. autorewrite with tk. reflexivity.
Qed.
Lemma port_inv ts c g p n s' : yields port (Pst ts c g p) n s' ->
  exists x r, ts = map tok_of (port_text (x, n)) ++ r /\ port_fine (x, n) /\ s' = Pst r c g p.
Proof.
  unfold port. intros H. step H. apply colon_inv in H0. destruct H0 as (x & r & -> & ->). step H. prim.
  destruct ((a0 <? 1) || (65535 <? a0)) eqn:B; [dead|]. prim. exists x. eexists. split; [reflexivity|]. split; [unfold port_fine; cbn; lia|reflexivity].
Qed.
Lemma bind_port_inv ts c g p n s' : yields bind_port (Pst ts c g p) n s' ->
  exists x r, ts = map tok_of (port_text (x, n)) ++ r /\ n <= 65535 /\ s' = Pst r c g p.
Proof.
  unfold bind_port. intros H. step H. apply colon_inv in H0. destruct H0 as (x & r & -> & ->). step H. prim.
  destruct (65535 <? a0) eqn:B; [dead|]. prim. exists x. eexists. split; [reflexivity|]. split; [lia|reflexivity].
Qed.
Lemma maybe_bind_port_inv ts c g p n s' : yields maybe_bind_port (Pst ts c g p) n s' ->
  exists op r, ts = map tok_of (maybe_port_text op) ++ r /\ n = option_map snd op /\ bind_port_fine op /\ s' = Pst r c g p.
Proof.
  unfold maybe_bind_port. intros H. step H. apply peek_inv in H0. destruct H0 as (r & -> & -> & _).
  assert (D : forall b, yields (if b : bool then (let! n <- bind_port; ret (Some n)) else ret None) (Pst (a :: r) c g p) n s' ->
    exists op r', a :: r = map tok_of (maybe_port_text op) ++ r' /\ n = option_map snd op /\ bind_port_fine op /\ s' = Pst r' c g p).
  { intros [|] H0.
    - step H0. apply bind_port_inv in H1. destruct H1 as (x & r' & -> & L & ->). prim.
      exists (Some (x, a0)), r'. repeat split. exact L.
    - prim. exists None, (a :: r). repeat split. }
  destruct a; try exact (D false H).
  - exact (D (c0 =? 58) H).
  - destruct k; try exact (D false H). exact (D true H).
Qed.
Lemma maybe_bind_interface_inv ts c g p i s' : yields maybe_bind_interface (Pst ts c g p) i s' ->
  exists r, ts = map tok_of (match i with None => [] | Some s => [K "interface"; LStr s] end) ++ r /\ s' = Pst r c g p.
Proof.
  unfold maybe_bind_interface. intros H. step H. apply opt_inv in H0. destruct a.
  - destruct H0 as (r & -> & ->). steps H. eexists. split; [|reflexivity]. cbn [map app]. autorewrite with tk. reflexivity.
  - subst s. prim. exists ts. split; reflexivity.
Qed.
Lemma maybe_as_inv ts c g p i s' : yields maybe_as (Pst ts c g p) i s' ->
  exists r, ts = map tok_of (match i with None => [] | Some s => [K "as"; LStr s] end) ++ r /\ s' = Pst r c g p.
Proof.
  unfold maybe_as. intros H. step H. apply opt_inv in H0. destruct a.
  - destruct H0 as (r & -> & ->). steps H. eexists. split; [|reflexivity]. cbn [map app]. autorewrite with tk. reflexivity.
  - subst s. prim. exists ts. split; reflexivity.
Qed.
Lemma maybe_bind_default_inv ts c g p d s' : yields maybe_bind_default (Pst ts c g p) d s' ->
  exists od r, ts = map tok_of (default_text od) ++ r /\ d = (for4 od, for6 od) /\ s' = Pst r c g p.
Proof.
  unfold maybe_bind_default. intros H. step H. apply opt_inv in H0. destruct a.
  - destruct H0 as (r & -> & ->). step H. apply peek_inv in H0. destruct H0 as (r' & -> & -> & _).
    assert (D : yields (ret (true, true)) (Pst (a :: r') c g p) d s' ->
      exists od r, TKey Kdefault :: a :: r' = map tok_of (default_text od) ++ r /\ d = (for4 od, for6 od) /\ s' = Pst r c g p).
    { intros H0. prim. exists (Some None), (a :: r'). repeat split. }
    destruct a; try exact (D H). destruct k; try exact (D H); clear D; next H; prim; [exists (Some (Some Inet))|exists (Some (Some Inet6))];
      eexists; (split; [|split; reflexivity]); cbn [default_text map app]; unfold family_text; autorewrite with tk; reflexivity.
  - subst s. prim. exists None, ts. repeat split.
Qed.
