(** The dispatch of received datagrams. *)
From Verif Require Import Base BufferModel MethodModel HandshakeModel HandshakeSpec.

Lemma inner_spec t r ctl :
  match classify_inner (t :: r) ctl with
  | PHandshake pkt c => pkt = t :: r /\ c = ctl /\ t = 1%N
  | PData pkt c => pkt = t :: r /\ c = ctl /\ t <> 1%N /\ N.land t 128 = 0%N
  | PInvalid => t <> 1%N /\ N.land t 128 <> 0%N
  end.
Proof.
  unfold classify_inner. cbn [nth]. destruct (N.eqb_spec t PACKET_HANDSHAKE) as [E|E]; [repeat split; exact E|].
  destruct (N.eqb_spec (N.land t 128) 0) as [F|F]; [repeat split; assumption|split; assumption].
Qed.
Lemma carries_unique d p c p' c' : carries d p c -> carries d p' c' -> p = p' /\ c = c'.
Proof.
  intros A B. destruct A as [t r N|v h t r V L]; inversion B as [t' r' N' X|v' h' t' r' V' L' X]; subst; try congruence.
  - split; reflexivity.
  - assert (Y : t' :: r' = t :: r).
    { match goal with H : h' ++ _ = _ |- _ => apply (f_equal (skipn 10)) in H; rewrite <- L in H at 2; rewrite <- L' in H at 1;
        rewrite !skipn_app, !skipn_all, !Nat.sub_diag in H; exact H end. }
    injection Y as -> ->. split; reflexivity.
Qed.
Theorem classify_spec d :
  match classify d with
  | PHandshake pkt ctl => carries d pkt ctl /\ exists r, pkt = 1%N :: r
  | PData pkt ctl => carries d pkt ctl /\ exists t r, pkt = t :: r /\ t <> 1%N /\ N.land t 128 = 0%N
  | PInvalid => forall pkt ctl, carries d pkt ctl -> exists t r, pkt = t :: r /\ t <> 1%N /\ N.land t 128 <> 0%N
  end.
Proof.
  destruct d as [|t r]; [intros pkt ctl C; inversion C|]. cbn [classify]. destruct (N.eqb_spec t 200) as [->|N].
  - lazymatch goal with |- context [Nat.ltb ?n 13] => destruct (Nat.ltb_spec n 13) as [L|L] end.
    { intros pkt ctl C. inversion C as [? ? X|v h t r' V LH]; subst; [congruence|]. exfalso. cbn [length] in L. rewrite app_length in L. cbn [length] in L. lia. }
    destruct r as [|v r]; [cbn in L; lia|]. cbn [nth]. destruct (N.eqb_spec (N.land v 15) 3) as [V|V].
    + cbn [skipn]. pose proof (firstn_skipn 10 r) as S. assert (LF : length (firstn 10 r) = 10) by (rewrite firstn_length; cbn [length] in L; lia).
      assert (LS : length (skipn 10 r) <> 0) by (rewrite skipn_length; cbn [length] in L; lia).
      destruct (skipn 10 r) as [|t r'] eqn:E; [cbn in LS; congruence|].
      assert (C : carries (200%N :: v :: r) (t :: r') true). { rewrite <- S. constructor; assumption. }
      pose proof (inner_spec t r' true) as I. change (match r with _ :: _ :: _ :: _ :: _ :: _ :: _ :: _ :: _ :: _ :: l => l | _ => [] end) with (skipn 10 r).
      rewrite E. destruct (classify_inner (t :: r') true) as [p c|p c|].
      * destruct I as (-> & -> & ->). split; [exact C|eexists; reflexivity].
      * destruct I as (-> & -> & I1 & I2). split; [exact C|]. exists t, r'. repeat split; assumption.
      * intros pkt ctl C'. destruct (carries_unique _ _ _ _ _ C C') as [<- _]. exists t, r'. split; [reflexivity|exact I].
    + intros pkt ctl C. inversion C; subst; congruence.
  - assert (C : carries (t :: r) (t :: r) false) by (constructor; exact N).
    pose proof (inner_spec t r false) as I. destruct (classify_inner (t :: r) false) as [p c|p c|].
    + destruct I as (-> & -> & ->). split; [exact C|eexists; reflexivity].
    + destruct I as (-> & -> & I1 & I2). split; [exact C|]. exists t, r. repeat split; assumption.
    + intros pkt ctl C'. destruct (carries_unique _ _ _ _ _ C C') as [<- _]. exists t, r. split; [reflexivity|exact I].
Qed.
